(* The project's own tests, run on the model: xproto/xproto_test.go and the units of work of xtorm_test.go. The tests take the
   protobuf library's word for what was encoded; here it is the decoders of SpecMsg. What is compared is at least what the tests compare.
   These are checks of the translation from Go, not properties. *)
From Coq Require Import String List NArith ZArith Arith Bool.
From Coq Require Import List.
From Verif Require Import Base GoSlice SpecWire SpecMsg Text Values AnyModel ExprModel MsgModel Operators Builder.
From Verif Require ThmBuilder.
Import ListNotations.
Open Scope N_scope.
Open Scope list_scope.

#[local] Existing Instance ThmBuilder.plain.

(* A nil slice. *)
Definition empty_slice : slice := mk [] [].

(* What a test reads back: one length delimited field 1 with nothing behind it, decoded. *)
Definition read_back {A} (d : bytes -> option A) (r : res (slice * option err)) : option A :=
  match r with
  | Ok (q, None) => match dfields (data q) with Some [(1, WLen pl)] => d pl | _ => None end
  | _ => None
  end.
(* The same for a message: a whole frame with nothing behind it. *)
Definition read_message (r : res (slice * option err)) : option (list msg) :=
  match r with Ok (q, None) => dstream (data q) | _ => None end.
(* Insert and Update leave the length to the next layer: the type and the payload only. *)
Definition read_headless (r : res (slice * option err)) : option msg :=
  match r with Ok (q, None) => match skipn 4 (data q) with ty :: pl => dmsg ty pl | [] => None end | _ => None end.

(* ---- xproto_test.go:23-382: the values of TestAnyLiterals and TestExprLiterals, with what is checked for each; instead of time.Now() a given time ---- *)
Definition zero_time : gtime := {| t_year := 1; t_month := 1; t_day := 1; t_hour := 0; t_min := 0; t_sec := 0; t_nsec := 0 |}.
Definition noon : gtime := {| t_year := 2020; t_month := 2; t_day := 29; t_hour := 12; t_min := 0; t_sec := 0; t_nsec := 5 |}.
Definition alphabet : bytes := s2b "abcdefghijklmnopqrstuvwxyz".
Definition sixteen : bytes := [0; 1; 2; 3; 4; 5; 6; 7; 8; 9; 10; 11; 12; 13; 14; 15].
Definition literals : list (gvalue * scalar) :=
  [ (VNil, SNull); (VBool true, SBool true); (VBool false, SBool false);
    (VUint8 0, SUint 0); (VUint8 255, SUint 255); (VUint16 0, SUint 0); (VUint16 65535, SUint 65535);
    (VUint32 0, SUint 0); (VUint32 4294967295, SUint 4294967295); (VUint64 0, SUint 0); (VUint64 18446744073709551615, SUint 18446744073709551615);
    (VUint 0, SUint 0); (VUint 1, SUint 1); (VUint 18446744073709551615, SUint 18446744073709551615);
    (VInt8 (-128), SSint (-128)); (VInt8 (-1), SSint (-1)); (VInt8 0, SSint 0); (VInt8 1, SSint 1); (VInt8 127, SSint 127);
    (VInt16 (-32768), SSint (-32768)); (VInt16 (-1), SSint (-1)); (VInt16 0, SSint 0); (VInt16 1, SSint 1); (VInt16 32767, SSint 32767);
    (VInt32 (-2147483648), SSint (-2147483648)); (VInt32 (-1), SSint (-1)); (VInt32 0, SSint 0); (VInt32 1, SSint 1); (VInt32 2147483647, SSint 2147483647);
    (VInt64 (-9223372036854775808), SSint (-9223372036854775808)); (VInt64 (-1), SSint (-1)); (VInt64 0, SSint 0); (VInt64 1, SSint 1);
    (VInt64 9223372036854775807, SSint 9223372036854775807); (VInt (-1), SSint (-1)); (VInt 0, SSint 0); (VInt 1, SSint 1);
    (VFloat32 0, SFloat 0); (VFloat32 2139095039, SFloat 2139095039); (VFloat64 0, SDouble 0); (VFloat64 9218868437227405311, SDouble 9218868437227405311);
    (VTime zero_time, SOctets (s2b "0001-01-01 00:00:00.000000000") None);
    (VTime noon, SOctets (s2b "2020-02-29 12:00:00.000000005") None);
    (VDuration (-42000000000), SOctets (s2b "-0:00:42") None); (VDuration 0, SOctets (s2b "0:00:00") None); (VDuration 42000000000, SOctets (s2b "0:00:42") None);
    (VString [], SString [] None); (VString alphabet, SString alphabet None);
    (VBytes (Some []), SOctets [] None); (VBytes (Some sixteen), SOctets sixteen None) ].

Example test_any_literals : map (fun x => read_back dany (append_any (fst x) empty_slice 1)) literals = map (fun x => Some (snd x)) literals.
Proof. vm_compute. reflexivity. Qed.

Example test_expr_literals : map (fun x => read_back dexpr (append_expr (fst x) empty_slice 1)) literals = map (fun x => Some (XLiteral (snd x))) literals.
Proof. vm_compute. reflexivity. Qed.

(* ---- xproto_test.go:384-418 TestExprColumn ---- *)
Example test_expr_column : read_back dexpr (okm (append_expr_column empty_slice 1 (s2b "id"))) = Some (XColumn (s2b "id")).
Proof. vm_compute. reflexivity. Qed.

(* ---- xproto_test.go:420-475 TestExprOperator ---- *)
Definition id_column : gvalue := VFunc (Some (EUserFn (fun p tag => okm (append_expr_column p tag (s2b "id"))))).
Definition operators : list (bytes * list gvalue * list expr) :=
  [ (s2b "a", [], []); (s2b "default", [], []);
    (s2b "+", [id_column; VInt 1], [XColumn (s2b "id"); XLiteral (SSint 1)]);
    (s2b "eq", [id_column; VInt 42], [XColumn (s2b "id"); XLiteral (SSint 42)]);
    (s2b "is_not", [id_column; VNil], [XColumn (s2b "id"); XLiteral SNull]);
    (s2b "in", id_column :: map (fun z => VInt z) [1; 2; 3; 4; 5; 6; 7; 8; 9]%Z, XColumn (s2b "id") :: map (fun z => XLiteral (SSint z)) [1; 2; 3; 4; 5; 6; 7; 8; 9]%Z) ].
Example test_expr_operator :
  map (fun t => match t with (name, ps, _) => read_back dexpr (run_fun (EOperator name ps) empty_slice 1) end) operators =
  map (fun t => match t with (name, _, es) => Some (XOperator name es) end) operators.
Proof. vm_compute. reflexivity. Qed.

(* ---- xproto_test.go:477-519 TestExprFunction ---- *)
Example test_expr_function :
  map (fun name => read_back dexpr (run_fun (ECall name []) empty_slice 1)) [s2b "LAST_INSERT_ID"; s2b "ROW_COUNT"] =
  [Some (XCall (s2b "LAST_INSERT_ID") []); Some (XCall (s2b "ROW_COUNT") [])].
Proof. vm_compute. reflexivity. Qed.

(* ---- xproto_test.go:521-615 TestPrepare, TestExecute, TestDeallocate ---- *)
Example test_prepare :
  map (fun t => read_message (okm (msg_prepare empty_slice (fst t) (snd t))))
    [(1, s2b "INSERT INTO foo(a, b) VALUES(?, ?)"); (142, s2b "UPDATE foo SET a = ? WHERE b = ?"); (4294967295, s2b "DELETE FROM WHERE id = ?")] =
  [ Some [MPrepare 1 (s2b "INSERT INTO foo(a, b) VALUES(?, ?)")]; Some [MPrepare 142 (s2b "UPDATE foo SET a = ? WHERE b = ?")];
    Some [MPrepare 4294967295 (s2b "DELETE FROM WHERE id = ?")] ].
Proof. vm_compute. reflexivity. Qed.
Example test_execute :
  map (fun t => read_message (msg_execute empty_slice (fst t) (snd t)))
    [(1, []); (142, [VInt 1; VInt 2]); (4294967295, []); (2, [VInt 1; VString (s2b "abcdef")])] =
  [ Some [MExecute 1 []]; Some [MExecute 142 [SSint 1; SSint 2]]; Some [MExecute 4294967295 []]; Some [MExecute 2 [SSint 1; SString (s2b "abcdef") None]] ].
Proof. vm_compute. reflexivity. Qed.
Example test_deallocate :
  map (fun id => read_message (okm (msg_deallocate empty_slice id))) [1; 142; 4294967295] =
  [Some [MDeallocate 1]; Some [MDeallocate 142]; Some [MDeallocate 4294967295]].
Proof. vm_compute. reflexivity. Qed.

(* ---- xproto_test.go:617-642 TestDelete ---- *)
Example test_delete :
  map (fun name => read_message (msg_delete empty_slice name None)) [s2b "foo"; alphabet ++ alphabet ++ alphabet] =
  [Some [MDelete (s2b "foo") None None]; Some [MDelete (alphabet ++ alphabet ++ alphabet) None None]].
Proof. vm_compute. reflexivity. Qed.

(* ---- xproto_test.go:644-700 TestInsert ---- *)
Definition insert_rows (q : slice) (rows : list (list gvalue)) : res (slice * option err) :=
  fold_left (fun r row => do (q, e) <- r; match e with None => append_insert_row q row | Some e => Ok (q, Some e) end) rows (Ok (q, None)).
Example test_insert :
  read_headless (do q <- msg_insert empty_slice (s2b "foo") [s2b "id"; s2b "col"];
                 insert_rows q [[VInt 0; VString (s2b "zero")]; [VInt 1; VString (s2b "one")]; [VInt 2; VString (s2b "two")]]) =
  Some (MInsert (s2b "foo") (Some 2) [s2b "id"; s2b "col"]
    [[XLiteral (SSint 0); XLiteral (SString (s2b "zero") None)]; [XLiteral (SSint 1); XLiteral (SString (s2b "one") None)]; [XLiteral (SSint 2); XLiteral (SString (s2b "two") None)]]).
Proof. vm_compute. reflexivity. Qed.

(* ---- xproto_test.go:702-777 TestUpdate. Some functions in it pass on the tag of parameters, not the one they are given; of the orders in which Go may visit the last map, the written one ---- *)
Definition update_sets (r : res (slice * option err)) (sets : list (bytes * gvalue)) : res (slice * option err) :=
  fold_left (fun r kv => do (q, e) <- r; match e with None => append_update_set q (fst kv) (snd kv) | Some e => Ok (q, Some e) end) sets r.
Definition col (name : string) : gvalue := VFunc (Some (EUserFn (fun p _ => okm (append_expr_column p tagOperatorParam (s2b name))))).
Definition operator (name : string) (ps : list gvalue) : exprfun := EUserFn (fun p tag => run_fun (EOperator (s2b name) ps) p tag).
Definition updates : list (option exprfun * list (bytes * gvalue)) :=
  [ (None, [(s2b "val", VString (s2b "bar"))]);
    (None, [(s2b "val2", VFunc (Some (operator "default" [])))]);
    (Some (operator "is" [col "val2"; VFunc (Some (EUserFn (fun p tag => ok (append_expr_null p tag))))]), [(s2b "val2", VString [])]);
    (Some (operator "==" [col "id"; VFunc (Some (EUserFn (fun p _ => okm (append_expr_int64 p tagOperatorParam 2))))]),
      [(s2b "val", VString (s2b "foo")); (s2b "val2", VString (s2b "id > 2"))]) ].
Example test_update :
  map (fun t => read_headless (update_sets (msg_update empty_slice (s2b "foo") (fst t)) (snd t))) updates =
  let foo := MUpdate (s2b "foo") (Some 2) in let text s := XLiteral (SString s None) in
  [ Some (foo None [(s2b "val", text (s2b "bar"))]);
    Some (foo None [(s2b "val2", XOperator (s2b "default") [])]);
    Some (foo (Some (XOperator (s2b "is") [XColumn (s2b "val2"); XLiteral SNull])) [(s2b "val2", text [])]);
    Some (foo (Some (XOperator (s2b "==") [XColumn (s2b "id"); XLiteral (SSint 2)])) [(s2b "val", text (s2b "foo")); (s2b "val2", text (s2b "id > 2"))]) ].
Proof. vm_compute. reflexivity. Qed.

(* ---- xproto_test.go:779-807 TestReset, 809-845 TestStmtExecute ---- *)
Example test_reset : map (fun k => read_message (ok (msg_reset empty_slice k))) [false; true] = [Some [MReset false]; Some [MReset true]].
Proof. vm_compute. reflexivity. Qed.
Example test_stmt_execute :
  map (fun t => read_message (stmt_execute empty_slice (fst t) (snd t))) [(s2b "SELECT 1", []); (s2b "SELECT ?", [VInt 42]); (s2b "SELECT ?", [VString (s2b "abcdef")])] =
  [Some [MStmtExecute (s2b "SELECT 1") []]; Some [MStmtExecute (s2b "SELECT ?") [SSint 42]]; Some [MStmtExecute (s2b "SELECT ?") [SString (s2b "abcdef") None]]].
Proof. vm_compute. reflexivity. Qed.

(* ---- xtorm_test.go: the units of work its tests send to a server ---- *)
Definition sends (pr : prog) : option (list msg) :=
  match run pr [new_pipe 1024] with
  | Ok ([b], _) => match send b with Ok (inl bs) => dstream bs | _ => None end
  | _ => None
  end.
Definition calls (cs : list call) (next : prog) : prog := fold_right (PCall 0) next cs.
Definition done : prog := Ret None [].
Definition numbers : list (Z * bytes) := combine (map Z.of_nat (seq 0 21)) (map s2b
  ["zero"; "one"; "two"; "three"; "four"; "five"; "six"; "seven"; "eight"; "nine"; "ten"; "eleven"; "twelve"; "thirteen"; "fourteen"; "fiveteen"; "sixteen"; "seventeen"; "eighteen"; "nineteen"; "twenty"])%string.
Definition insert_foo : bytes := s2b "INSERT INTO foo(id, val) VALUES(?, ?)".
Definition unit_with (body : prog) : prog := (* OpenExpectCtxEmpty is 1, IsolationLevelDefault is 0 *)
  PBlock 0 (KExpectFailOnError 1) (calls [CPrepare 1 insert_foo] (PBlock 0 (KTx 0) body (fun _ => done))) (fun _ => done).
Definition wrapped (ms : list msg) : list msg :=
  [MExpectOpen 1 [CNoError (s2b "1")]; MPrepare 1 insert_foo; MStmtExecute (s2b "START TRANSACTION") []; MDelete (s2b "foo") None None] ++ ms ++
  [MStmtExecute (s2b "COMMIT") []; MExpectClose].

(* xtorm_test.go:46-68, 99-118 TestInsertPrepared *)
Example test_insert_prepared :
  sends (unit_with (calls (CDelete (s2b "foo") None :: map (fun n => CExecute 1 [VInt (fst n); VString (snd n)]) numbers) done)) =
  Some (wrapped (map (fun n => MExecute 1 [SSint (fst n); SString (snd n) None]) numbers)).
Proof. vm_compute. reflexivity. Qed.

(* xtorm_test.go:70-97, 120-139 TestInsertMultirow (which spells 15 "fifteen", TestInsertPrepared "fiveteen") *)
Example test_insert_multirow :
  sends (unit_with (calls [CDelete (s2b "foo") None; CInsertF (s2b "foo") [s2b "id"; s2b "val"] (map (fun n => IRow [VInt (fst n); VString (snd n)]) numbers) None] done)) =
  Some (wrapped [MInsert (s2b "foo") (Some 2) [s2b "id"; s2b "val"] (map (fun n => [XLiteral (SSint (fst n)); XLiteral (SString (snd n) None)]) numbers)]).
Proof. vm_compute. reflexivity. Qed.

(* xtorm_test.go:141-158 TestUpdateExecution *)
Example test_update_execution :
  sends (PBlock 0 (KExpectFailOnError 1) (calls [CUpdateF (s2b "foo") (Some (Eq (VFunc (Some (EColumn (s2b "id")))) (VInt 1)))
      [USet (s2b "val2") (VFunc (Some (DateAdd (VTime noon) (VInt 100) (s2b "HOUR"))))] None] done) (fun _ => done)) =
  Some [ MExpectOpen 1 [CNoError (s2b "1")];
    MUpdate (s2b "foo") (Some 2) (Some (XOperator (s2b "==") [XColumn (s2b "id"); XLiteral (SSint 1)]))
      [(s2b "val2", XOperator (s2b "date_add") [XLiteral (SOctets (s2b "2020-02-29 12:00:00.000000005") None); XLiteral (SSint 100); XLiteral (SOctets (s2b "HOUR") None)])];
    MExpectClose ].
Proof. vm_compute. reflexivity. Qed.

(* xtorm_test.go:160-183 TestLastInsertID, which the project skips: the server does not support variables. The numbers are the lengths of the buffer *)
Example test_last_insert_id : 
  sends (PBlock 0 (KExpectFailOnError 1) (PBlock 0 (KTx 0)
      (PInsertRow 0 (s2b "xml") [s2b "xml"] [VXmlString (s2b "<test></test>")] (fun xmlID =>
       PInsertRow 0 (s2b "xmlchild") [s2b "xmlid"; s2b "value"] [VFunc xmlID; VString (s2b "xml fk")] (fun _ => done)))
      (fun _ => done)) (fun _ => done)) =
  Some [ MExpectOpen 1 [CNoError (s2b "1")]; MStmtExecute (s2b "START TRANSACTION") [];
    MInsert (s2b "xml") (Some 2) [s2b "xml"] [[XLiteral (SOctets (s2b "<test></test>") (Some 3))]]; MStmtExecute (s2b "SET @id$88 = LAST_INSERT_ID()") [];
    MInsert (s2b "xmlchild") (Some 2) [s2b "xmlid"; s2b "value"] [[XVariable (s2b "@id$88"); XLiteral (SString (s2b "xml fk") None)]]; MStmtExecute (s2b "SET @id$193 = LAST_INSERT_ID()") [];
    MStmtExecute (s2b "COMMIT") []; MExpectClose ].
Proof. vm_compute. reflexivity. Qed.
