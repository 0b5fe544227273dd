(* Model of /repo/xproto/expr.go. *)
From Coq Require Import List NArith ZArith Arith.
From Verif Require Import Base GoSlice Varint Text Values AnyModel.
Import ListNotations.
Open Scope N_scope.

(* xproto/expr.go:16-40 *)
Definition tagExprType : N := 1.
Definition tagExprIdentifier : N := 2.
Definition tagExprVariable : N := 3.
Definition tagExprLiteral : N := 4.
Definition tagExprFunctionCall : N := 5.
Definition tagExprOperator : N := 6.
Definition tagExprPosition : N := 7.
Definition tagOperatorName : N := 1.
Definition tagOperatorParam : N := 2.
Definition tagFunctionCallName : N := 1.
Definition tagFunctionCallParam : N := 2.
Definition tagColumnIdentifierName : N := 2.
(* xproto/expr.go:354 *)
Definition tagIdentifierName : N := 1.

(* protobuf/mysqlx_expr Expr_Type *)
Definition Expr_IDENT : N := 1.
Definition Expr_LITERAL : N := 2.
Definition Expr_VARIABLE : N := 3.
Definition Expr_FUNC_CALL : N := 4.
Definition Expr_OPERATOR : N := 5.
Definition Expr_PLACEHOLDER : N := 6.

Section Model.
Context `{E : Env}.

(* xproto/expr.go:42-47 appendExprNull *)
Definition append_expr_null (p : slice) (tag : N) : slice :=
  append p [hdr tag wireBytes; 6; hdr tagExprType wireVarint; Expr_LITERAL;
            hdr tagExprLiteral wireBytes; 2; hdr tagScalarType wireVarint; Scalar_V_NULL].

(* xproto/expr.go:49-55 appendExprBool *)
Definition append_expr_bool (p : slice) (tag : N) (x : bool) : slice :=
  append p [hdr tag wireBytes; 8; hdr tagExprType wireVarint; Expr_LITERAL;
            hdr tagExprLiteral wireBytes; 4; hdr tagScalarType wireVarint; Scalar_V_BOOL;
            hdr tagScalarBool wireVarint; encode_bool x].

(* xproto/expr.go:57-68 appendExprUint64 *)
Definition append_expr_uint64 (p : slice) (tag x : N) : res slice :=
  let n := size_varint x in
  let p := append p [hdr tag wireBytes; byte (7 + byte (N.of_nat n)); hdr tagExprType wireVarint; Expr_LITERAL;
              hdr tagExprLiteral wireBytes; byte (3 + byte (N.of_nat n));
              hdr tagScalarType wireVarint; Scalar_V_UINT; hdr tagScalarUint wireVarint;
              b80 x; b80 (N.shiftr x 7); b80 (N.shiftr x 14); b80 (N.shiftr x 21); b80 (N.shiftr x 28);
              b80 (N.shiftr x 35); b80 (N.shiftr x 42); b80 (N.shiftr x 49); byte (N.shiftr x 56); 1] in
  mask_truncate p (n + (len p - 10)).

(* xproto/expr.go:70-82 appendExprInt64 *)
Definition append_expr_int64 (p : slice) (tag : N) (v : Z) : res slice :=
  let x := zigzag 64 v in
  let n := size_varint x in
  let p := append p [hdr tag wireBytes; byte (7 + byte (N.of_nat n)); hdr tagExprType wireVarint; Expr_LITERAL;
              hdr tagExprLiteral wireBytes; byte (3 + byte (N.of_nat n));
              hdr tagScalarType wireVarint; Scalar_V_SINT; hdr tagScalarSint wireVarint;
              b80 x; b80 (N.shiftr x 7); b80 (N.shiftr x 14); b80 (N.shiftr x 21); b80 (N.shiftr x 28);
              b80 (N.shiftr x 35); b80 (N.shiftr x 42); b80 (N.shiftr x 49); byte (N.shiftr x 56); 1] in
  mask_truncate p (n + (len p - 10)).

(* xproto/expr.go:84-91 appendExprFloat32; the argument is math.Float32bits(f) *)
Definition append_expr_float32 (p : slice) (tag x : N) : slice :=
  append p [hdr tag wireBytes; 11; hdr tagExprType wireVarint; Expr_LITERAL;
            hdr tagExprLiteral wireBytes; 7; hdr tagScalarType wireVarint; Scalar_V_FLOAT;
            hdr tagScalarFloat wireFixed32; byte x; byte (N.shiftr x 8); byte (N.shiftr x 16); byte (N.shiftr x 24)].

(* xproto/expr.go:93-101 appendExprFloat64; the argument is math.Float64bits(f) *)
Definition append_expr_float64 (p : slice) (tag x : N) : slice :=
  append p [hdr tag wireBytes; 15; hdr tagExprType wireVarint; Expr_LITERAL;
            hdr tagExprLiteral wireBytes; 11; hdr tagScalarType wireVarint; Scalar_V_DOUBLE;
            hdr tagScalarDouble wireFixed64; byte x; byte (N.shiftr x 8); byte (N.shiftr x 16); byte (N.shiftr x 24);
            byte (N.shiftr x 32); byte (N.shiftr x 40); byte (N.shiftr x 48); byte (N.shiftr x 56)].

(* xproto/expr.go:103-121 appendExprTime *)
Definition append_expr_time (p : slice) (tag : N) (t : gtime) : res slice :=
  let i := len p in
  let p := append (append p [hdr tag wireBytes; 10; hdr tagExprType wireVarint; Expr_LITERAL;
                     hdr tagExprLiteral wireBytes; 6; hdr tagScalarType wireVarint; Scalar_V_OCTETS;
                     hdr tagScalarOctets wireBytes; 2; hdr tagOctetValue wireBytes; 0]) (format_time t) in
  let n := (len p - i - 12)%nat in
  if (128 <=? n + 10)%nat then Panic else bump_lengths p i n.

(* xproto/expr.go:123-137 appendExprDuration *)
Definition append_expr_duration (p : slice) (tag : N) (d : Z) : res slice :=
  let i := len p in
  do p <- append_duration (append p [hdr tag wireBytes; 10; hdr tagExprType wireVarint; Expr_LITERAL;
                     hdr tagExprLiteral wireBytes; 6; hdr tagScalarType wireVarint; Scalar_V_OCTETS;
                     hdr tagScalarOctets wireBytes; 2; hdr tagOctetValue wireBytes; 0]) d;
  bump_lengths p i (len p - i - 12).

(* xproto/expr.go:139-175 AppendExprString. b is an offset into p: Go's b[k] is p[b+k]. *)
Definition append_expr_string (p : slice) (tag : N) (s : bytes) (collation : N) : res slice :=
  let n := length s in
  let n0 := (1 + sizev n + n)%nat in
  let n0 := if collation =? 0 then n0 else (n0 + (1 + size_varint collation))%nat in
  let n1 := (3 + sizev n0 + n0)%nat in
  let n2 := (3 + sizev n1 + n1)%nat in
  let b := len p in
  let p := for_append p (1 + sizev n2 + n2) in
  do (p, i) <- put_uvarint p (b + 1) (N.of_nat n2);
  do p <- put p b [hdr tag wireBytes];
  let b := (b + (1 + i))%nat in
  (* Expr *)
  do (p, i) <- put_uvarint p (b + 3) (N.of_nat n1);
  do p <- put p b [hdr tagExprType wireVarint];
  do p <- put p (b + 1) [Expr_LITERAL];
  do p <- put p (b + 2) [hdr tagExprLiteral wireBytes];
  let b := (b + (3 + i))%nat in
  (* Scalar *)
  do (p, i) <- put_uvarint p (b + 3) (N.of_nat n0);
  do p <- put p b [hdr tagScalarType wireVarint];
  do p <- put p (b + 1) [Scalar_V_STRING];
  do p <- put p (b + 2) [hdr tagScalarString wireBytes];
  let b := (b + (3 + i))%nat in
  (* Scalar_String *)
  do (p, b) <- (if collation =? 0 then Ok (p, b) else
      do (p, i) <- put_uvarint p (b + 1) collation;
      do p <- put p b [hdr tagStringCollation wireVarint];
      Ok (p, b + (1 + i))%nat);
  do p <- put p b [hdr tagStringValue wireBytes];
  do (p, i) <- put_uvarint p (b + 1) (N.of_nat n);
  copy_at p (b + (1 + i)) s.

(* xproto/expr.go:219-256 AppendExprBytesString; 177-217 AppendExprBytes is the same code for a non-nil slice *)
Definition append_expr_bytes_string (p : slice) (tag : N) (str : bytes) (contentType : N) : res slice :=
  let n := length str in
  let n0 := (1 + sizev n + n)%nat in
  let n0 := if contentType =? 0 then n0 else (n0 + (1 + size_varint contentType))%nat in
  let n1 := (3 + sizev n0 + n0)%nat in
  let n2 := (3 + sizev n1 + n1)%nat in
  let b := len p in
  let p := for_append p (1 + sizev n2 + n2) in
  do (p, i) <- put_uvarint p (b + 1) (N.of_nat n2);
  do p <- put p b [hdr tag wireBytes];
  let b := (b + (1 + i))%nat in
  (* Expr *)
  do (p, i) <- put_uvarint p (b + 3) (N.of_nat n1);
  do p <- put p b [hdr tagExprType wireVarint];
  do p <- put p (b + 1) [Expr_LITERAL];
  do p <- put p (b + 2) [hdr tagExprLiteral wireBytes];
  let b := (b + (3 + i))%nat in
  (* Scalar *)
  do (p, i) <- put_uvarint p (b + 3) (N.of_nat n0);
  do p <- put p b [hdr tagScalarType wireVarint];
  do p <- put p (b + 1) [Scalar_V_OCTETS];
  do p <- put p (b + 2) [hdr tagScalarOctets wireBytes];
  let b := (b + (3 + i))%nat in
  (* Scalar_Octets *)
  do (p, b) <- (if contentType =? 0 then Ok (p, b) else
      do (p, i) <- put_uvarint p (b + 1) contentType;
      do p <- put p b [hdr tagOctetContentType wireVarint];
      Ok (p, b + (1 + i))%nat);
  do (p, i) <- put_uvarint p (b + 1) (N.of_nat n);
  do p <- put p b [hdr tagOctetValue wireBytes];
  copy_at p (b + (1 + i)) str.

(* xproto/expr.go:177-217 AppendExprBytes *)
Definition append_expr_bytes (p : slice) (tag : N) (bs : option bytes) (contentType : N) : res slice :=
  match bs with
  | None => Ok (append_expr_null p tag)
  | Some bs => append_expr_bytes_string p tag bs contentType
  end.

(* xproto/expr.go:393-413 AppendExprColumn; i counts from the start of b, at offset b of p *)
Definition append_expr_column (p : slice) (tag : N) (name : bytes) : res slice :=
  let n := length name in
  let n0 := (1 + sizev n + n)%nat in
  let n1 := (3 + sizev n0 + n0)%nat in
  let b := len p in
  let p := for_append p (1 + sizev n1 + n1) in
  do p <- put p b [hdr tag wireBytes];
  do (p, k) <- put_uvarint p (b + 1) (N.of_nat n1);
  let i := (b + (1 + k))%nat in
  do p <- put p i [hdr tagExprType wireVarint];
  let i := (i + 1)%nat in
  do p <- put p i [Expr_IDENT];
  let i := (i + 1)%nat in
  do p <- put p i [hdr tagExprIdentifier wireBytes];
  let i := (i + 1)%nat in
  do (p, k) <- put_uvarint p i (N.of_nat n0);
  let i := (i + k)%nat in
  do p <- put p i [hdr tagColumnIdentifierName wireBytes];
  let i := (i + 1)%nat in
  do (p, k) <- put_uvarint p i (N.of_nat n);
  let i := (i + k)%nat in
  copy_at p i name.

(* xproto/expr.go:415-423 AppendExprPlaceholder *)
Definition append_expr_placeholder (p : slice) (tag pos : N) : res slice :=
  let n := size_varint pos in
  let p := append p [hdr tag wireBytes; byte (3 + byte (N.of_nat n));
              hdr tagExprType wireVarint; Expr_PLACEHOLDER; hdr tagExprPosition wireVarint;
              b80 pos; b80 (N.shiftr pos 7); b80 (N.shiftr pos 14); b80 (N.shiftr pos 21); byte (N.shiftr pos 28)] in
  mask_truncate p (n + (len p - 5)).

(* xproto/expr.go:425-435 AppendExprVariable *)
Definition append_expr_variable (p : slice) (tag : N) (name : bytes) : res slice :=
  let x := nlen name in
  let n := size_varint x in
  let p := append p [hdr tag wireBytes; byte (3 + byte (N.of_nat n + x));
              hdr tagExprType wireVarint; Expr_VARIABLE; hdr tagExprVariable wireBytes;
              b80 x; b80 (N.shiftr x 7); b80 (N.shiftr x 14); b80 (N.shiftr x 21); b80 (N.shiftr x 28);
              b80 (N.shiftr x 35); b80 (N.shiftr x 42); b80 (N.shiftr x 49); byte (N.shiftr x 56); 1] in
  do p <- mask_truncate p (n + (len p - 10));
  Ok (append p name).

(* xproto/expr.go:326-344, the part of AppendExprOperator after the parameters have been
   appended; i is the length of the slice before them.
   Simplification: len p - i is 0 rather than negative if user code returned, without an error, a
   slice shorter than the one it was given; the theorems assume it does not. *)
Definition operator_header (p : slice) (i : nat) (tag : N) (name : bytes) : res slice :=
  let nParams := (len p - i)%nat in
  let nOperator := (1 + sizev (length name) + length name + nParams)%nat in
  let nExpr := (3 + sizev nOperator + nOperator)%nat in
  do p <- insert p i (1 + sizev nExpr + nExpr - nParams);
  do p <- put p i [hdr tag wireBytes];
  let i := (i + 1)%nat in
  do (p, k) <- put_uvarint p i (N.of_nat nExpr);
  let i := (i + k)%nat in
  do p <- put p i [hdr tagExprType wireVarint];
  let i := (i + 1)%nat in
  do p <- put p i [Expr_OPERATOR];
  let i := (i + 1)%nat in
  do p <- put p i [hdr tagExprOperator wireBytes];
  let i := (i + 1)%nat in
  do (p, k) <- put_uvarint p i (N.of_nat nOperator);
  let i := (i + k)%nat in
  do p <- put p i [hdr tagOperatorName wireBytes];
  let i := (i + 1)%nat in
  do (p, k) <- put_uvarint p i (nlen name);
  let i := (i + k)%nat in
  copy_at p i name.

(* xproto/expr.go:366-390, the part of AppendExprFunctionCall after the parameters. len p - i as in
   operator_header. *)
Definition call_header (p : slice) (i : nat) (tag : N) (name : bytes) : res slice :=
  let nParams := (len p - i)%nat in
  let nIdentifier := (1 + sizev (length name) + length name)%nat in
  let nFuncCall := (1 + sizev nIdentifier + nIdentifier + nParams)%nat in
  let nExpr := (3 + sizev nFuncCall + nFuncCall)%nat in
  do p <- insert p i (1 + sizev nExpr + nExpr - nParams);
  do p <- put p i [hdr tag wireBytes];
  let i := (i + 1)%nat in
  do (p, k) <- put_uvarint p i (N.of_nat nExpr);
  let i := (i + k)%nat in
  do p <- put p i [hdr tagExprType wireVarint];
  let i := (i + 1)%nat in
  do p <- put p i [Expr_FUNC_CALL];
  let i := (i + 1)%nat in
  do p <- put p i [hdr tagExprFunctionCall wireBytes];
  let i := (i + 1)%nat in
  do (p, k) <- put_uvarint p i (N.of_nat nFuncCall);
  let i := (i + k)%nat in
  do p <- put p i [hdr tagFunctionCallName wireBytes];
  let i := (i + 1)%nat in
  do (p, k) <- put_uvarint p i (N.of_nat nIdentifier);
  let i := (i + k)%nat in
  do p <- put p i [hdr tagIdentifierName wireBytes];
  let i := (i + 1)%nat in
  do (p, k) <- put_uvarint p i (nlen name);
  let i := (i + k)%nat in
  copy_at p i name.

(* The AppendExpr method of a non-pointer type, if it has one:
   expr.go:20-22, 33-35, 46-48, 59-61, 72-74, 84-86, and user types. *)
Definition expr_method (v : gvalue) : option ufun :=
  match v with
  | VStr s c => Some (fun p tag => okm (append_expr_string p tag s c))
  | VXml b => Some (fun p tag => okm (append_expr_bytes p tag b ContentTypeXML))
  | VXmlString s => Some (fun p tag => okm (append_expr_bytes_string p tag s ContentTypeXML))
  | VJson b => Some (fun p tag => okm (append_expr_bytes p tag b ContentTypeJSON))
  | VJsonString s => Some (fun p tag => okm (append_expr_bytes_string p tag s ContentTypeJSON))
  | VGeometry b => Some (fun p tag => okm (append_expr_bytes p tag b ContentTypeGeometry))
  | VUser _ m => m
  | _ => None
  end.

(* for j, x := range xs { p, err = f(p, x); if err != nil { return p, wrap(j, err) } }
   xproto/expr.go:319-325, 359-365; xproto/insert.go:64-70 *)
Definition each {A} (f : A -> slice -> res (slice * option err)) (wrap : nat -> err -> err) :
    nat -> list A -> slice -> res (slice * option err) :=
  fix each j xs p :=
  match xs with
  | [] => Ok (p, None)
  | x :: xs =>
      do (p, e) <- f x p;
      match e with
      | Some e => Ok (p, Some (wrap j e))
      | None => each (S j) xs p
      end
  end.

(* xproto/expr.go:264-311 appendExpr, and the functions it calls through AppendExprFunc:
   317-345 AppendExprOperator, 351-391 AppendExprFunctionCall, 393-435. *)
Fixpoint append_expr (v : gvalue) (p : slice) (tag : N) {struct v} : res (slice * option err) :=
  match v with
  | VNil => ok (append_expr_null p tag)
  | VBool b => ok (append_expr_bool p tag b)
  | VInt8 z | VInt16 z | VInt32 z | VInt64 z | VInt z => okm (append_expr_int64 p tag z)
  | VUint8 n | VUint16 n | VUint32 n | VUint64 n | VUint n => okm (append_expr_uint64 p tag n)
  | VString s => okm (append_expr_string p tag s 0)
  | VBytes b => okm (append_expr_bytes p tag b 0)
  | VFloat32 x => ok (append_expr_float32 p tag x)
  | VFloat64 x => ok (append_expr_float64 p tag x)
  | VTime t => okm (append_expr_time p tag t)
  | VDuration d => okm (append_expr_duration p tag d)
  | VFunc None => Panic
  | VFunc (Some f) => run_fun f p tag
  | VPtr iface v' =>
      match (if iface then None else expr_method v') with
      | Some m => m p tag
      | None => Ok (p, Some EUnsupported)
      end
  | VNilPtr _ m => if m then Panic else Ok (p, Some EUnsupported)
  | _ =>
      match expr_method v with
      | Some m => m p tag
      | None => Ok (p, Some EUnsupported)
      end
  end
(* Calling an AppendExprFunc. *)
with run_fun (f : exprfun) (p : slice) (tag : N) {struct f} : res (slice * option err) :=
  match f with
  | EColumn name => okm (append_expr_column p tag name)
  | EVariable name => okm (append_expr_variable p tag name)
  | EPlaceholder pos => okm (append_expr_placeholder p tag pos)
  | EUserFn u => u p tag
  | EOperator name params =>
      let i := len p in
      do (p, e) <- each (fun v p => append_expr v p tagOperatorParam) EParam 0 params p;
      match e with
      | Some e => Ok (p, Some e)
      | None => okm (operator_header p i tag name)
      end
  | ECall name params =>
      let i := len p in
      do (p, e) <- each (fun v p => append_expr v p tagFunctionCallParam) EParam 0 params p;
      match e with
      | Some e => Ok (p, Some e)
      | None => okm (call_header p i tag name)
      end
  end.

End Model.
