(* Specification: the messages of SpecMsg written with the names of the .proto files. *)
From Coq Require Import String List NArith ZArith Bool.
From Coq Require Import List.
From Verif Require Import Base SpecMsg SpecProto.
Import ListNotations.
Open Scope string_scope.
Open Scope list_scope.
Open Scope N_scope.

Definition opt_named {A} (name : string) (f : A -> pval) (o : option A) : list (string * pval) :=
  match o with Some a => [(name, f a)] | None => [] end.
Definition each {A} (name : string) (f : A -> pval) (l : list A) : list (string * pval) := map (fun a => (name, f a)) l.
Definition number (n : N) : pval := PInt (Z.of_N n).

Definition name_scalar (s : scalar) : pval :=
  PMessage match s with
  | SSint z => [("type", PEnum "V_SINT"); ("v_signed_int", PInt z)]
  | SUint n => [("type", PEnum "V_UINT"); ("v_unsigned_int", number n)]
  | SNull => [("type", PEnum "V_NULL")]
  | SOctets v c => [("type", PEnum "V_OCTETS"); ("v_octets", PMessage (("value", PBytes v) :: opt_named "content_type" number c))]
  | SDouble b => [("type", PEnum "V_DOUBLE"); ("v_double", PBits b)]
  | SFloat b => [("type", PEnum "V_FLOAT"); ("v_float", PBits b)]
  | SBool b => [("type", PEnum "V_BOOL"); ("v_bool", PBool b)]
  | SString v c => [("type", PEnum "V_STRING"); ("v_string", PMessage (("value", PBytes v) :: opt_named "collation" number c))]
  end.

Definition name_any (s : scalar) : pval := PMessage [("type", PEnum "SCALAR"); ("scalar", name_scalar s)].

Fixpoint name_expr (e : expr) : pval :=
  PMessage match e with
  | XColumn n => [("type", PEnum "IDENT"); ("identifier", PMessage [("name", PBytes n)])]
  | XLiteral s => [("type", PEnum "LITERAL"); ("literal", name_scalar s)]
  | XVariable n => [("type", PEnum "VARIABLE"); ("variable", PBytes n)]
  | XCall n ps => [("type", PEnum "FUNC_CALL");
                   ("function_call", PMessage (("name", PMessage [("name", PBytes n)]) :: map (fun e => ("param", name_expr e)) ps))]
  | XOperator n ps => [("type", PEnum "OPERATOR");
                       ("operator", PMessage (("name", PBytes n) :: map (fun e => ("param", name_expr e)) ps))]
  | XPlaceholder n => [("type", PEnum "PLACEHOLDER"); ("position", number n)]
  end.

Definition named (n : bytes) : pval := PMessage [("name", PBytes n)].
Definition name_model (m : N) : pval := PEnum (if m =? 1 then "DOCUMENT" else "TABLE").
Definition name_row (row : list expr) : pval := PMessage (each "field" name_expr row).
Definition name_set (s : bytes * expr) : pval :=
  PMessage [("source", named (fst s)); ("operation", PEnum "SET"); ("value", name_expr (snd s))].
Definition name_cond (c : cond) : pval :=
  PMessage match c with
  | CNoError v => [("condition_key", number 1); ("condition_value", PBytes v)]
  | CFieldExist v => [("condition_key", number 2); ("condition_value", PBytes v)]
  end.
Definition name_capability (c : bytes * scalar) : pval := PMessage [("name", PBytes (fst c)); ("value", name_any (snd c))].

Definition name_msg (m : msg) : string * pval :=
  match m with
  | MStmtExecute stmt args => ("Mysqlx.Sql.StmtExecute", PMessage (("stmt", PBytes stmt) :: each "args" name_any args))
  | MPrepare id stmt =>
      ("Mysqlx.Prepare.Prepare",
       PMessage [("stmt_id", number id);
                 ("stmt", PMessage [("type", PEnum "STMT"); ("stmt_execute", PMessage [("stmt", PBytes stmt)])])])
  | MExecute id args => ("Mysqlx.Prepare.Execute", PMessage (("stmt_id", number id) :: each "args" name_any args))
  | MDeallocate id => ("Mysqlx.Prepare.Deallocate", PMessage [("stmt_id", number id)])
  | MInsert table model columns rows =>
      ("Mysqlx.Crud.Insert",
       PMessage (("collection", named table) :: opt_named "data_model" name_model model ++ each "projection" named columns ++
                 each "row" name_row rows))
  | MUpdate table model criteria sets =>
      ("Mysqlx.Crud.Update",
       PMessage (("collection", named table) :: opt_named "data_model" name_model model ++ opt_named "criteria" name_expr criteria ++
                 each "operation" name_set sets))
  | MDelete table model criteria =>
      ("Mysqlx.Crud.Delete",
       PMessage (("collection", named table) :: opt_named "data_model" name_model model ++ opt_named "criteria" name_expr criteria))
  | MExpectOpen op conds =>
      ("Mysqlx.Expect.Open",
       PMessage (("op", PEnum (if op =? 0 then "EXPECT_CTX_COPY_PREV" else "EXPECT_CTX_EMPTY")) :: each "cond" name_cond conds))
  | MExpectClose => ("Mysqlx.Expect.Close", PMessage [])
  | MReset keep_open => ("Mysqlx.Session.Reset", PMessage (if keep_open then [("keep_open", PBool true)] else []))
  | MAuthStart mech data =>
      ("Mysqlx.Session.AuthenticateStart", PMessage (("mech_name", PBytes mech) :: opt_named "auth_data" PBytes data))
  | MAuthContinue data => ("Mysqlx.Session.AuthenticateContinue", PMessage [("auth_data", PBytes data)])
  | MCapabilitiesSet caps =>
      ("Mysqlx.Connection.CapabilitiesSet", PMessage [("capabilities", PMessage (each "capabilities" name_capability caps))])
  end.
