(* Specification: the messages of /repo/protobuf/*.proto that xtorm sends, and strict decoders
   for them. A decoder rejects unknown fields, repeated singular fields, missing required fields
   and fields that do not belong to the declared type, and accepts fields in any order. Where it
   succeeds, every conforming protobuf decoder reads the same message. *)
From Coq Require Import List NArith ZArith Bool.
From Verif Require Import Base SpecWire.
Import ListNotations.
Open Scope N_scope.

(* mysqlx_datatypes.proto: Scalar *)
Inductive scalar :=
| SSint (z : Z)
| SUint (n : N)
| SNull
| SOctets (value : bytes) (content_type : option N)
| SDouble (bits : N)
| SFloat (bits : N)
| SBool (b : bool)
| SString (value : bytes) (collation : option N).

(* Scalar.String and Scalar.Octets: required bytes value = 1; optional uint collation/content_type = 2 *)
Definition dvalue_opt (bs : bytes) : option (bytes * option N) :=
  let? fs := dfields bs in
  assert (only [1; 2] fs) in
  let? v := obind (req_field 1 fs) as_len in
  let? o := opt_field 2 fs in
  match o with
  | None => Some (v, None)
  | Some w => let? n := as_varint w in Some (v, Some n)
  end.

Definition dscalar (bs : bytes) : option scalar :=
  let? fs := dfields bs in
  let? ty := obind (req_field 1 fs) as_varint in
  match ty with
  | 1 => assert (only [1; 2] fs) in
         let? n := obind (req_field 2 fs) as_varint in Some (SSint (unzigzag n))
  | 2 => assert (only [1; 3] fs) in
         let? n := obind (req_field 3 fs) as_varint in Some (SUint n)
  | 3 => assert (only [1] fs) in Some SNull
  | 4 => assert (only [1; 5] fs) in
         let? b := obind (req_field 5 fs) as_len in
         let? (v, c) := dvalue_opt b in
         assert (match c with Some n => n <? 2 ^ 32 | None => true end) in
         Some (SOctets v c)
  | 5 => assert (only [1; 6] fs) in
         let? n := obind (req_field 6 fs) as_i64 in Some (SDouble n)
  | 6 => assert (only [1; 7] fs) in
         let? n := obind (req_field 7 fs) as_i32 in Some (SFloat n)
  | 7 => assert (only [1; 8] fs) in
         let? n := obind (req_field 8 fs) as_varint in
         assert (n <? 2) in Some (SBool (n =? 1))
  | 8 => assert (only [1; 9] fs) in
         let? b := obind (req_field 9 fs) as_len in
         let? (v, c) := dvalue_opt b in Some (SString v c)
  | _ => None
  end.

(* mysqlx_datatypes.proto: Any, restricted to type SCALAR *)
Definition dany (bs : bytes) : option scalar :=
  let? fs := dfields bs in
  assert (only [1; 2] fs) in
  let? ty := obind (req_field 1 fs) as_varint in
  assert (ty =? 1) in
  let? b := obind (req_field 2 fs) as_len in
  dscalar b.

(* mysqlx_expr.proto: Expr *)
Inductive expr :=
| XColumn (name : bytes)
| XLiteral (s : scalar)
| XVariable (name : bytes)
| XCall (name : bytes) (params : list expr)
| XOperator (name : bytes) (params : list expr)
| XPlaceholder (n : N).

(* A message holding exactly one string field n: ColumnIdentifier{name = 2}, Identifier{name = 1},
   Collection{name = 1}, Column{name = 1}, StmtExecute{stmt = 1}. *)
Definition dname (n : N) (bs : bytes) : option bytes :=
  let? fs := dfields bs in
  assert (only [n] fs) in
  obind (req_field n fs) as_len.

(* The fuel bounds the nesting depth; the number of bytes always suffices. *)
Fixpoint dexpr_k (k : nat) (bs : bytes) : option expr :=
  match k with
  | O => None
  | S k =>
    let? fs := dfields bs in
    let? ty := obind (req_field 1 fs) as_varint in
    match ty with
    | 1 => assert (only [1; 2] fs) in
           let? b := obind (req_field 2 fs) as_len in
           let? n := dname 2 b in Some (XColumn n)
    | 2 => assert (only [1; 4] fs) in
           let? b := obind (req_field 4 fs) as_len in
           let? s := dscalar b in Some (XLiteral s)
    | 3 => assert (only [1; 3] fs) in
           let? b := obind (req_field 3 fs) as_len in Some (XVariable b)
    | 4 => assert (only [1; 5] fs) in
           let? b := obind (req_field 5 fs) as_len in
           let? gs := dfields b in
           assert (only [1; 2] gs) in
           let? n := obind (obind (req_field 1 gs) as_len) (dname 1) in
           let? ps := omap (fun w => obind (as_len w) (dexpr_k k)) (all_of 2 gs) in
           Some (XCall n ps)
    | 5 => assert (only [1; 6] fs) in
           let? b := obind (req_field 6 fs) as_len in
           let? gs := dfields b in
           assert (only [1; 2] gs) in
           let? n := obind (req_field 1 gs) as_len in
           let? ps := omap (fun w => obind (as_len w) (dexpr_k k)) (all_of 2 gs) in
           Some (XOperator n ps)
    | 6 => assert (only [1; 7] fs) in
           let? n := obind (req_field 7 fs) as_varint in
           assert (n <? 2 ^ 32) in Some (XPlaceholder n)
    | _ => None
    end
  end.
Definition dexpr (bs : bytes) : option expr := dexpr_k (S (length bs)) bs.

(* mysqlx_expect.proto: Open.Condition *)
Inductive cond := CNoError (value : bytes) | CFieldExist (value : bytes).

(* Client messages, mysqlx.proto ClientMessages.Type and the messages it refers to. *)
Inductive msg :=
| MStmtExecute (stmt : bytes) (args : list scalar)
| MPrepare (id : N) (stmt : bytes)
| MExecute (id : N) (args : list scalar)
| MDeallocate (id : N)
| MInsert (table : bytes) (data_model : option N) (columns : list bytes) (rows : list (list expr))
| MUpdate (table : bytes) (data_model : option N) (criteria : option expr) (sets : list (bytes * expr))
| MDelete (table : bytes) (data_model : option N) (criteria : option expr)
| MExpectOpen (op : N) (conds : list cond)
| MExpectClose
| MReset (keep_open : bool)
| MAuthStart (mech : bytes) (auth_data : option bytes)
| MAuthContinue (auth_data : bytes)
| MCapabilitiesSet (caps : list (bytes * scalar)).

Definition dsub {A} (d : bytes -> option A) (w : wval) : option A := obind (as_len w) d.
Definition dopt {A} (d : wval -> option A) (o : option wval) : option (option A) :=
  match o with None => Some None | Some w => let? a := d w in Some (Some a) end.

Definition dmodel (w : wval) : option N :=
  let? n := as_varint w in assert (orb (n =? 1) (n =? 2)) in Some n.
Definition du32 (w : wval) : option N :=
  let? n := as_varint w in assert (n <? 2 ^ 32) in Some n.

(* mysqlx_sql.proto: StmtExecute{stmt = 1, args = 2} *)
Definition dstmt_execute (bs : bytes) : option msg :=
  let? fs := dfields bs in
  assert (only [1; 2] fs) in
  let? s := obind (req_field 1 fs) as_len in
  let? args := omap (dsub dany) (all_of 2 fs) in
  Some (MStmtExecute s args).

(* mysqlx_prepare.proto: Prepare{stmt_id = 1, stmt = 2: OneOfMessage{type = 1 STMT(5), stmt_execute = 6}} *)
Definition dprepare (bs : bytes) : option msg :=
  let? fs := dfields bs in
  assert (only [1; 2] fs) in
  let? id := obind (req_field 1 fs) du32 in
  let? b := obind (req_field 2 fs) as_len in
  let? gs := dfields b in
  assert (only [1; 6] gs) in
  let? ty := obind (req_field 1 gs) as_varint in
  assert (ty =? 5) in
  let? c := obind (req_field 6 gs) as_len in
  let? s := dname 1 c in
  Some (MPrepare id s).

Definition dexecute (bs : bytes) : option msg :=
  let? fs := dfields bs in
  assert (only [1; 2] fs) in
  let? id := obind (req_field 1 fs) du32 in
  let? args := omap (dsub dany) (all_of 2 fs) in
  Some (MExecute id args).

Definition ddeallocate (bs : bytes) : option msg :=
  let? fs := dfields bs in
  assert (only [1] fs) in
  let? id := obind (req_field 1 fs) du32 in
  Some (MDeallocate id).

(* mysqlx_crud.proto: Insert{collection = 1, data_model = 2, projection = 3, row = 4: TypedRow{field = 1}} *)
Definition drow (bs : bytes) : option (list expr) :=
  let? fs := dfields bs in
  assert (only [1] fs) in
  omap (dsub dexpr) (all_of 1 fs).

Definition dinsert (bs : bytes) : option msg :=
  let? fs := dfields bs in
  assert (only [1; 2; 3; 4] fs) in
  let? t := obind (req_field 1 fs) (dsub (dname 1)) in
  let? m := obind (opt_field 2 fs) (dopt dmodel) in
  let? cols := omap (dsub (dname 1)) (all_of 3 fs) in
  let? rows := omap (dsub drow) (all_of 4 fs) in
  Some (MInsert t m cols rows).

(* UpdateOperation{source = 1: ColumnIdentifier, operation = 2 SET(1), value = 3} *)
Definition dset (bs : bytes) : option (bytes * expr) :=
  let? fs := dfields bs in
  assert (only [1; 2; 3] fs) in
  let? n := obind (req_field 1 fs) (dsub (dname 2)) in
  let? op := obind (req_field 2 fs) as_varint in
  assert (op =? 1) in
  let? e := obind (req_field 3 fs) (dsub dexpr) in
  Some (n, e).

(* Update{collection = 2, data_model = 3, criteria = 4, operation = 7} *)
Definition dupdate (bs : bytes) : option msg :=
  let? fs := dfields bs in
  assert (only [2; 3; 4; 7] fs) in
  let? t := obind (req_field 2 fs) (dsub (dname 1)) in
  let? m := obind (opt_field 3 fs) (dopt dmodel) in
  let? c := obind (opt_field 4 fs) (dopt (dsub dexpr)) in
  let? sets := omap (dsub dset) (all_of 7 fs) in
  Some (MUpdate t m c sets).

(* Delete{collection = 1, data_model = 2, criteria = 3} *)
Definition ddelete (bs : bytes) : option msg :=
  let? fs := dfields bs in
  assert (only [1; 2; 3] fs) in
  let? t := obind (req_field 1 fs) (dsub (dname 1)) in
  let? m := obind (opt_field 2 fs) (dopt dmodel) in
  let? c := obind (opt_field 3 fs) (dopt (dsub dexpr)) in
  Some (MDelete t m c).

(* mysqlx_expect.proto: Open{op = 1 [COPY_PREV = 0, EMPTY = 1], cond = 2: Condition{key = 1, value = 2}} *)
Definition dcond (bs : bytes) : option cond :=
  let? fs := dfields bs in
  assert (only [1; 2] fs) in
  let? k := obind (req_field 1 fs) as_varint in
  let? v := obind (req_field 2 fs) as_len in
  match k with
  | 1 => Some (CNoError v)
  | 2 => Some (CFieldExist v)
  | _ => None
  end.

Definition dexpect_open (bs : bytes) : option msg :=
  let? fs := dfields bs in
  assert (only [1; 2] fs) in
  let? op := obind (req_field 1 fs) as_varint in
  assert (op <? 2) in
  let? cs := omap (dsub dcond) (all_of 2 fs) in
  Some (MExpectOpen op cs).

Definition dexpect_close (bs : bytes) : option msg :=
  match bs with [] => Some MExpectClose | _ => None end.

(* mysqlx_session.proto: Reset{keep_open = 1 [default = false]}; the default need not be sent and must not be *)
Definition dreset (bs : bytes) : option msg :=
  let? fs := dfields bs in
  assert (only [1] fs) in
  let? o := opt_field 1 fs in
  match o with
  | None => Some (MReset false)
  | Some w => let? n := as_varint w in assert (n =? 1) in Some (MReset true)
  end.

(* AuthenticateStart{mech_name = 1, auth_data = 2}, AuthenticateContinue{auth_data = 1} *)
Definition dauth_start (bs : bytes) : option msg :=
  let? fs := dfields bs in
  assert (only [1; 2] fs) in
  let? m := obind (req_field 1 fs) as_len in
  let? d := obind (opt_field 2 fs) (dopt as_len) in
  Some (MAuthStart m d).

Definition dauth_continue (bs : bytes) : option msg :=
  let? d := dname 1 bs in Some (MAuthContinue d).

(* mysqlx_connection.proto: CapabilitiesSet{capabilities = 1: Capabilities{capabilities = 1: Capability{name = 1, value = 2}}} *)
Definition dcapability (bs : bytes) : option (bytes * scalar) :=
  let? fs := dfields bs in
  assert (only [1; 2] fs) in
  let? n := obind (req_field 1 fs) as_len in
  let? v := obind (req_field 2 fs) (dsub dany) in
  Some (n, v).

Definition dcapabilities_set (bs : bytes) : option msg :=
  let? c := dname 1 bs in
  let? fs := dfields c in
  assert (only [1] fs) in
  let? cs := omap (dsub dcapability) (all_of 1 fs) in
  Some (MCapabilitiesSet cs).

(* mysqlx.proto: ClientMessages.Type *)
Definition dmsg (ty : N) (payload : bytes) : option msg :=
  match ty with
  | 2 => dcapabilities_set payload
  | 4 => dauth_start payload
  | 5 => dauth_continue payload
  | 6 => dreset payload
  | 12 => dstmt_execute payload
  | 18 => dinsert payload
  | 19 => dupdate payload
  | 20 => ddelete payload
  | 24 => dexpect_open payload
  | 25 => dexpect_close payload
  | 40 => dprepare payload
  | 41 => dexecute payload
  | 42 => ddeallocate payload
  | _ => None
  end.

(* What the server reads from a byte stream sent by the client. *)
Definition dstream (bs : bytes) : option (list msg) :=
  let? fs := dframes bs in
  omap (fun f => dmsg (fst f) (snd f)) fs.
