(* The encoders of /repo/xproto and the builder as sequences of accesses to memory: MemModel.v, function by function, with the operations of Fine.v in
   place of those of Mem.v. *)
From Coq Require Import Ascii String NArith ZArith Arith List.
From Coq Require Import List.
From Verif Require Import Base GoSlice Varint Text Values AnyModel ExprModel MsgModel Builder Mem MemModel Fine.
Import ListNotations.
Open Scope N_scope.

Section Model.
Context `{E : Env}.

(* A user's AppendAny, AppendExpr or AppendExprFunc, as MemModel.h_user. Simplification: it reads the whole slice it is given, spare part included, and then writes it. *)
Definition g_user (f : ufun) (s : hslice) (tag : N) : go (hslice * option err) :=
  let! l := loads (arr s) (off s) (hcap s) in
  match f (mk (firstn (hlen s) l) (skipn (hlen s) l)) tag with
  | Panic => Stop
  | Ok (q, e) =>
      if (cap q =? hcap s)%nat
      then let! _ := stores (arr s) (off s) (data q ++ spare q) in Return (mkh (arr s) (off s) (len q) (hcap s), e)
      else Alloc (data q ++ spare q) (fun a => Return (mkh a 0 (len q) (cap q), e))
  end.

(* xproto/scalar.go:47-55 AppendDuration *)
Definition g_append_duration (p : hslice) (d : Z) : go hslice :=
  let! (p, d) := (if (d <? 0)%Z then let! p := g_append p [45] in Return (p, wrap64 (- d)) else Return (p, d)) in
  let i := 2 * (to_uint (Z.quot d ns_minute) mod 60) in
  let j := 2 * (to_uint (Z.quot d ns_second) mod 60) in
  let! p := g_append p (dec (Z.to_N (Z.quot d ns_hour mod 2 ^ 64)%Z)) in
  match smalls_at i, smalls_at (i + 1), smalls_at j, smalls_at (j + 1) with
  | Ok i0, Ok i1, Ok j0, Ok j1 => g_append p [58; i0; i1; 58; j0; j1]
  | _, _, _, _ => Stop
  end.

(* xproto/any.go:28-41 appendAnyUint8 *)
Definition g_append_any_uint8 (p : hslice) (tag x : N) : go hslice :=
  if x <? 128 then
    g_append p [hdr tag wireBytes; 8; hdr tagAnyType wireVarint; Any_SCALAR;
              hdr tagAnyScalar wireBytes; 4;
              hdr tagScalarType wireVarint; Scalar_V_UINT; hdr tagScalarUint wireVarint; x]
  else
    g_append p [hdr tag wireBytes; 9; hdr tagAnyType wireVarint; Any_SCALAR;
              hdr tagAnyScalar wireBytes; 5;
              hdr tagScalarType wireVarint; Scalar_V_UINT; hdr tagScalarUint wireVarint; x; 1].

(* xproto/any.go:43-53 appendAnyUint16 *)
Definition g_append_any_uint16 (p : hslice) (tag x : N) : go hslice :=
  let n := size_varint x in
  let! p := g_append p [hdr tag wireBytes; byte (7 + byte (N.of_nat n)); hdr tagAnyType wireVarint; Any_SCALAR;
              hdr tagAnyScalar wireBytes; byte (3 + byte (N.of_nat n));
              hdr tagScalarType wireVarint; Scalar_V_UINT; hdr tagScalarUint wireVarint;
              b80 x; b80 (N.shiftr x 7); byte (N.shiftr x 14)] in
  g_mask_truncate p (n + (hlen p - 3)).

(* xproto/any.go:55-65 appendAnyUint32 *)
Definition g_append_any_uint32 (p : hslice) (tag x : N) : go hslice :=
  let n := size_varint x in
  let! p := g_append p [hdr tag wireBytes; byte (7 + byte (N.of_nat n)); hdr tagAnyType wireVarint; Any_SCALAR;
              hdr tagAnyScalar wireBytes; byte (3 + byte (N.of_nat n));
              hdr tagScalarType wireVarint; Scalar_V_UINT; hdr tagScalarUint wireVarint;
              b80 x; b80 (N.shiftr x 7); b80 (N.shiftr x 14); b80 (N.shiftr x 21); byte (N.shiftr x 28)] in
  g_mask_truncate p (n + (hlen p - 5)).

(* xproto/any.go:69-80 appendAnyUint64 *)
Definition g_append_any_uint64 (p : hslice) (tag x : N) : go hslice :=
  let n := size_varint x in
  let! p := g_append p [hdr tag wireBytes; byte (7 + byte (N.of_nat n)); hdr tagAnyType wireVarint; Any_SCALAR;
              hdr tagAnyScalar wireBytes; byte (3 + byte (N.of_nat n));
              hdr tagScalarType wireVarint; Scalar_V_UINT; hdr tagScalarUint wireVarint;
              b80 x; b80 (N.shiftr x 7); b80 (N.shiftr x 14); b80 (N.shiftr x 21); b80 (N.shiftr x 28);
              b80 (N.shiftr x 35); b80 (N.shiftr x 42); b80 (N.shiftr x 49); byte (N.shiftr x 56); 1] in
  g_mask_truncate p (n + (hlen p - 10)).

(* xproto/any.go:82-96 appendAnyInt8 *)
Definition g_append_any_int8 (p : hslice) (tag : N) (v : Z) : go hslice :=
  let x := zigzag 8 v in
  if x <? 128 then
    g_append p [hdr tag wireBytes; 8; hdr tagAnyType wireVarint; Any_SCALAR;
              hdr tagAnyScalar wireBytes; 4;
              hdr tagScalarType wireVarint; Scalar_V_SINT; hdr tagScalarSint wireVarint; x]
  else
    g_append p [hdr tag wireBytes; 9; hdr tagAnyType wireVarint; Any_SCALAR;
              hdr tagAnyScalar wireBytes; 5;
              hdr tagScalarType wireVarint; Scalar_V_SINT; hdr tagScalarSint wireVarint; x; 1].

(* xproto/any.go:98-109 appendAnyInt16 *)
Definition g_append_any_int16 (p : hslice) (tag : N) (v : Z) : go hslice :=
  let x := zigzag 16 v in
  let n := size_varint x in
  let! p := g_append p [hdr tag wireBytes; byte (7 + byte (N.of_nat n)); hdr tagAnyType wireVarint; Any_SCALAR;
              hdr tagAnyScalar wireBytes; byte (3 + byte (N.of_nat n));
              hdr tagScalarType wireVarint; Scalar_V_SINT; hdr tagScalarSint wireVarint;
              b80 x; b80 (N.shiftr x 7); byte (N.shiftr x 14)] in
  g_mask_truncate p (n + (hlen p - 3)).

(* xproto/any.go:111-122 appendAnyInt32 *)
Definition g_append_any_int32 (p : hslice) (tag : N) (v : Z) : go hslice :=
  let x := zigzag 32 v in
  let n := size_varint x in
  let! p := g_append p [hdr tag wireBytes; byte (7 + byte (N.of_nat n)); hdr tagAnyType wireVarint; Any_SCALAR;
              hdr tagAnyScalar wireBytes; byte (3 + byte (N.of_nat n));
              hdr tagScalarType wireVarint; Scalar_V_SINT; hdr tagScalarSint wireVarint;
              b80 x; b80 (N.shiftr x 7); b80 (N.shiftr x 14); b80 (N.shiftr x 21); byte (N.shiftr x 28)] in
  g_mask_truncate p (n + (hlen p - 5)).

(* xproto/any.go:126-138 appendAnyInt64 *)
Definition g_append_any_int64 (p : hslice) (tag : N) (v : Z) : go hslice :=
  let x := zigzag 64 v in
  let n := size_varint x in
  let! p := g_append p [hdr tag wireBytes; byte (7 + byte (N.of_nat n)); hdr tagAnyType wireVarint; Any_SCALAR;
              hdr tagAnyScalar wireBytes; byte (3 + byte (N.of_nat n));
              hdr tagScalarType wireVarint; Scalar_V_SINT; hdr tagScalarSint wireVarint;
              b80 x; b80 (N.shiftr x 7); b80 (N.shiftr x 14); b80 (N.shiftr x 21); b80 (N.shiftr x 28);
              b80 (N.shiftr x 35); b80 (N.shiftr x 42); b80 (N.shiftr x 49); byte (N.shiftr x 56); 1] in
  g_mask_truncate p (n + (hlen p - 10)).

(* xproto/any.go:335-340 appendAnyNull *)
Definition g_append_any_null (p : hslice) (tag : N) : go hslice :=
  g_append p [hdr tag wireBytes; 6; hdr tagAnyType wireVarint; Any_SCALAR;
            hdr tagAnyScalar wireBytes; 2; hdr tagScalarType wireVarint; Scalar_V_NULL].

(* xproto/any.go:142-182 AppendAnyBytes on a non-nil slice; 186-223 AppendAnyBytesString is the same code
   *)
Definition g_append_any_bytes_string (p : hslice) (tag : N) (str : bytes) (contentType : N) : go hslice :=
  let n := length str in
  let n0 := (1 + sizev n + n)%nat in
  let n0 := if contentType =? ContentTypePlain then n0 else (n0 + (1 + size_varint contentType))%nat in
  let n1 := (3 + sizev n0 + n0)%nat in
  let n2 := (3 + sizev n1 + n1)%nat in
  let! (p, b) := g_for_append p (1 + sizev n2 + n2) in
  let! i := g_put_uvarint b 1 (N.of_nat n2) in
  let! _ := g_put b 0 [hdr tag wireBytes] in
  let! b := g_from b (1 + i) in
  (* Any *)
  let! i := g_put_uvarint b 3 (N.of_nat n1) in
  let! _ := g_put b 0 [hdr tagAnyType wireVarint] in
  let! _ := g_put b 1 [Any_SCALAR] in
  let! _ := g_put b 2 [hdr tagAnyScalar wireBytes] in
  let! b := g_from b (3 + i) in
  (* Scalar *)
  let! i := g_put_uvarint b 3 (N.of_nat n0) in
  let! _ := g_put b 0 [hdr tagScalarType wireVarint] in
  let! _ := g_put b 1 [Scalar_V_OCTETS] in
  let! _ := g_put b 2 [hdr tagScalarOctets wireBytes] in
  let! b := g_from b (3 + i) in
  (* Scalar_Octets *)
  let! b := (if contentType =? ContentTypePlain then Return b else
      let! i := g_put_uvarint b 1 contentType in
      let! _ := g_put b 0 [hdr tagOctetContentType wireVarint] in
      g_from b (1 + i)) in
  let! i := g_put_uvarint b 1 (N.of_nat n) in
  let! _ := g_put b 0 [hdr tagOctetValue wireBytes] in
  let! _ := g_copy b (1 + i) str in
  Return p.

(* xproto/any.go:142-182 AppendAnyBytes *)
Definition g_append_any_bytes (p : hslice) (tag : N) (bs : option bytes) (contentType : N) : go hslice :=
  match bs with
  | None => g_append_any_null p tag
  | Some bs => g_append_any_bytes_string p tag bs contentType
  end.

(* xproto/any.go:227-261 AppendAnyString *)
Definition g_append_any_string (p : hslice) (tag : N) (s : bytes) (collation : N) : go hslice :=
  let n := length s in
  let n0 := (1 + sizev n + n)%nat in
  let n0 := if collation =? 0 then n0 else (n0 + (1 + size_varint collation))%nat in
  let n1 := (3 + sizev n0 + n0)%nat in
  let n2 := (3 + sizev n1 + n1)%nat in
  let! (p, b) := g_for_append p (1 + sizev n2 + n2) in
  let! i := g_put_uvarint b 1 (N.of_nat n2) in
  let! _ := g_put b 0 [hdr tag wireBytes] in
  let! b := g_from b (1 + i) in
  (* Any *)
  let! i := g_put_uvarint b 3 (N.of_nat n1) in
  let! _ := g_put b 0 [hdr tagAnyType wireVarint] in
  let! _ := g_put b 1 [Any_SCALAR] in
  let! _ := g_put b 2 [hdr tagAnyScalar wireBytes] in
  let! b := g_from b (3 + i) in
  (* Scalar *)
  let! i := g_put_uvarint b 3 (N.of_nat n0) in
  let! _ := g_put b 0 [hdr tagScalarType wireVarint] in
  let! _ := g_put b 1 [Scalar_V_STRING] in
  let! _ := g_put b 2 [hdr tagScalarString wireBytes] in
  let! b := g_from b (3 + i) in
  (* Scalar_String *)
  let! b := (if collation =? 0 then Return b else
      let! i := g_put_uvarint b 1 collation in
      let! _ := g_put b 0 [hdr tagStringCollation wireVarint] in
      g_from b (1 + i)) in
  let! i := g_put_uvarint b 1 (N.of_nat n) in
  let! _ := g_put b 0 [hdr tagStringValue wireBytes] in
  let! _ := g_copy b (1 + i) s in
  Return p.

(* p[i+11] += byte(n); p[i+9] += ...; p[i+5] += ...; p[i+1] += byte(n) in uint8 arithmetic:
   xproto/any.go:277-280, 293-296; xproto/expr.go:116-119, 132-135 *)
Definition g_bump_lengths (p : hslice) (i n : nat) : go hslice :=
  let add := fun b => byte (b + byte (N.of_nat n)) in
  let! _ := g_upd p (i + 11) add in
  let! _ := g_upd p (i + 9) add in
  let! _ := g_upd p (i + 5) add in
  let! _ := g_upd p (i + 1) add in
  Return p.

(* xproto/any.go:263-282 appendAnyTime *)
Definition g_append_any_time (p : hslice) (tag : N) (t : gtime) : go hslice :=
  let i := hlen p in
  let! p := g_append p [hdr tag wireBytes; 10; hdr tagAnyType wireVarint; Any_SCALAR;
                     hdr tagAnyScalar wireBytes; 6; hdr tagScalarType wireVarint; Scalar_V_OCTETS;
                     hdr tagScalarOctets wireBytes; 2; hdr tagOctetValue wireBytes; 0] in
  let! p := g_append p (format_time t) in
  let n := (hlen p - i - 12)%nat in
  if (118 <=? n)%nat then Stop else g_bump_lengths p i n.

(* xproto/any.go:284-298 appendAnyDuration *)
Definition g_append_any_duration (p : hslice) (tag : N) (d : Z) : go hslice :=
  let i := hlen p in
  let! p := g_append p [hdr tag wireBytes; 10; hdr tagAnyType wireVarint; Any_SCALAR;
                     hdr tagAnyScalar wireBytes; 6; hdr tagScalarType wireVarint; Scalar_V_OCTETS;
                     hdr tagScalarOctets wireBytes; 2; hdr tagOctetValue wireBytes; 0] in
  let! p := g_append_duration p d in
  g_bump_lengths p i (hlen p - i - 12).

(* xproto/any.go:302-310 appendAnyFloat64; the argument is math.Float64bits(f) *)
Definition g_append_any_float64 (p : hslice) (tag x : N) : go hslice :=
  g_append p [hdr tag wireBytes; 15; hdr tagAnyType wireVarint; Any_SCALAR;
            hdr tagAnyScalar wireBytes; 11; hdr tagScalarType wireVarint; Scalar_V_DOUBLE;
            hdr tagScalarDouble wireFixed64; byte x; byte (N.shiftr x 8); byte (N.shiftr x 16); byte (N.shiftr x 24);
            byte (N.shiftr x 32); byte (N.shiftr x 40); byte (N.shiftr x 48); byte (N.shiftr x 56)].

(* xproto/any.go:314-321 appendAnyFloat32; the argument is math.Float32bits(f) *)
Definition g_append_any_float32 (p : hslice) (tag x : N) : go hslice :=
  g_append p [hdr tag wireBytes; 11; hdr tagAnyType wireVarint; Any_SCALAR;
            hdr tagAnyScalar wireBytes; 7; hdr tagScalarType wireVarint; Scalar_V_FLOAT;
            hdr tagScalarFloat wireFixed32; byte x; byte (N.shiftr x 8); byte (N.shiftr x 16); byte (N.shiftr x 24)].

(* xproto/any.go:325-331 appendAnyBool *)
Definition g_append_any_bool (p : hslice) (tag : N) (b : bool) : go hslice :=
  g_append p [hdr tag wireBytes; 8; hdr tagAnyType wireVarint; Any_SCALAR;
            hdr tagAnyScalar wireBytes; 4; hdr tagScalarType wireVarint; Scalar_V_BOOL;
            hdr tagScalarBool wireVarint; encode_bool b].

(* a function that returns no error, called where one is expected *)
Definition g_okm (m : go hslice) : go (hslice * option err) := let! p := m in Return (p, None).

(* The AppendAny method of a non-pointer type, if it has one:
   expr.go:16-18, 29-31, 42-44, 55-57, 68-70, 80-82, and user types. *)
Definition g_any_method (v : gvalue) : option (hslice -> N -> go (hslice * option err)) :=
  match v with
  | VStr s c => Some (fun p tag => g_okm (g_append_any_string p tag s c))
  | VXml b => Some (fun p tag => g_okm (g_append_any_bytes p tag b ContentTypeXML))
  | VXmlString s => Some (fun p tag => g_okm (g_append_any_bytes_string p tag s ContentTypeXML))
  | VJson b => Some (fun p tag => g_okm (g_append_any_bytes p tag b ContentTypeJSON))
  | VJsonString s => Some (fun p tag => g_okm (g_append_any_bytes_string p tag s ContentTypeJSON))
  | VGeometry b => Some (fun p tag => g_okm (g_append_any_bytes p tag b ContentTypeGeometry))
  | VUser m _ => option_map g_user m
  | _ => None
  end.

(* The typeSwitch loop of xproto/any.go:350-410. A pointer *T has the methods of T unless T is
   an interface or itself a pointer. A nil interface found behind a pointer is not special-cased. *)
Fixpoint g_type_switch (v : gvalue) (p : hslice) (tag : N) : go (hslice * option err) :=
  match v with
  | VInt z => if word32 then g_okm (g_append_any_int32 p tag z) else g_okm (g_append_any_int64 p tag z)
  | VInt8 z => g_okm (g_append_any_int8 p tag z)
  | VInt16 z => g_okm (g_append_any_int16 p tag z)
  | VInt32 z => g_okm (g_append_any_int32 p tag z)
  | VInt64 z => g_okm (g_append_any_int64 p tag z)
  | VUint n => if word32 then g_okm (g_append_any_uint32 p tag n) else g_okm (g_append_any_uint64 p tag n)
  | VUint8 n => g_okm (g_append_any_uint8 p tag n)
  | VUint16 n => g_okm (g_append_any_uint16 p tag n)
  | VUint32 n => g_okm (g_append_any_uint32 p tag n)
  | VUint64 n => g_okm (g_append_any_uint64 p tag n)
  | VString s => g_okm (g_append_any_string p tag s 0)
  | VBytes b => g_okm (g_append_any_bytes p tag b ContentTypePlain)
  | VBool b => g_okm (g_append_any_bool p tag b)
  | VFloat32 x => g_okm (g_append_any_float32 p tag x)
  | VFloat64 x => g_okm (g_append_any_float64 p tag x)
  | VTime t => g_okm (g_append_any_time p tag t)
  | VDuration d => g_okm (g_append_any_duration p tag d)
  | VPtr iface v' =>
      match (if iface then None else g_any_method v') with
      | Some m => m p tag
      | None => g_type_switch v' p tag
      end
  | VNilPtr m _ => if m then Stop else g_okm (g_append_any_null p tag)
  | _ =>
      match g_any_method v with
      | Some m => m p tag
      | None => Return (hnil, Some EUnsupported)
      end
  end.

(* xproto/any.go:346-411 appendAny *)
Definition g_append_any (v : gvalue) (p : hslice) (tag : N) : go (hslice * option err) :=
  match v with
  | VNil => g_okm (g_append_any_null p tag)
  | _ => g_type_switch v p tag
  end.

(* xproto/expr.go:42-47 appendExprNull *)
Definition g_append_expr_null (p : hslice) (tag : N) : go hslice :=
  g_append p [hdr tag wireBytes; 6; hdr tagExprType wireVarint; Expr_LITERAL;
            hdr tagExprLiteral wireBytes; 2; hdr tagScalarType wireVarint; Scalar_V_NULL].

(* xproto/expr.go:49-55 appendExprBool *)
Definition g_append_expr_bool (p : hslice) (tag : N) (x : bool) : go hslice :=
  g_append p [hdr tag wireBytes; 8; hdr tagExprType wireVarint; Expr_LITERAL;
            hdr tagExprLiteral wireBytes; 4; hdr tagScalarType wireVarint; Scalar_V_BOOL;
            hdr tagScalarBool wireVarint; encode_bool x].

(* xproto/expr.go:57-68 appendExprUint64 *)
Definition g_append_expr_uint64 (p : hslice) (tag x : N) : go hslice :=
  let n := size_varint x in
  let! p := g_append p [hdr tag wireBytes; byte (7 + byte (N.of_nat n)); hdr tagExprType wireVarint; Expr_LITERAL;
              hdr tagExprLiteral wireBytes; byte (3 + byte (N.of_nat n));
              hdr tagScalarType wireVarint; Scalar_V_UINT; hdr tagScalarUint wireVarint;
              b80 x; b80 (N.shiftr x 7); b80 (N.shiftr x 14); b80 (N.shiftr x 21); b80 (N.shiftr x 28);
              b80 (N.shiftr x 35); b80 (N.shiftr x 42); b80 (N.shiftr x 49); byte (N.shiftr x 56); 1] in
  g_mask_truncate p (n + (hlen p - 10)).

(* xproto/expr.go:70-82 appendExprInt64 *)
Definition g_append_expr_int64 (p : hslice) (tag : N) (v : Z) : go hslice :=
  let x := zigzag 64 v in
  let n := size_varint x in
  let! p := g_append p [hdr tag wireBytes; byte (7 + byte (N.of_nat n)); hdr tagExprType wireVarint; Expr_LITERAL;
              hdr tagExprLiteral wireBytes; byte (3 + byte (N.of_nat n));
              hdr tagScalarType wireVarint; Scalar_V_SINT; hdr tagScalarSint wireVarint;
              b80 x; b80 (N.shiftr x 7); b80 (N.shiftr x 14); b80 (N.shiftr x 21); b80 (N.shiftr x 28);
              b80 (N.shiftr x 35); b80 (N.shiftr x 42); b80 (N.shiftr x 49); byte (N.shiftr x 56); 1] in
  g_mask_truncate p (n + (hlen p - 10)).

(* xproto/expr.go:84-91 appendExprFloat32; the argument is math.Float32bits(f) *)
Definition g_append_expr_float32 (p : hslice) (tag x : N) : go hslice :=
  g_append p [hdr tag wireBytes; 11; hdr tagExprType wireVarint; Expr_LITERAL;
            hdr tagExprLiteral wireBytes; 7; hdr tagScalarType wireVarint; Scalar_V_FLOAT;
            hdr tagScalarFloat wireFixed32; byte x; byte (N.shiftr x 8); byte (N.shiftr x 16); byte (N.shiftr x 24)].

(* xproto/expr.go:93-101 appendExprFloat64; the argument is math.Float64bits(f) *)
Definition g_append_expr_float64 (p : hslice) (tag x : N) : go hslice :=
  g_append p [hdr tag wireBytes; 15; hdr tagExprType wireVarint; Expr_LITERAL;
            hdr tagExprLiteral wireBytes; 11; hdr tagScalarType wireVarint; Scalar_V_DOUBLE;
            hdr tagScalarDouble wireFixed64; byte x; byte (N.shiftr x 8); byte (N.shiftr x 16); byte (N.shiftr x 24);
            byte (N.shiftr x 32); byte (N.shiftr x 40); byte (N.shiftr x 48); byte (N.shiftr x 56)].

(* xproto/expr.go:103-121 appendExprTime *)
Definition g_append_expr_time (p : hslice) (tag : N) (t : gtime) : go hslice :=
  let i := hlen p in
  let! p := g_append p [hdr tag wireBytes; 10; hdr tagExprType wireVarint; Expr_LITERAL;
                     hdr tagExprLiteral wireBytes; 6; hdr tagScalarType wireVarint; Scalar_V_OCTETS;
                     hdr tagScalarOctets wireBytes; 2; hdr tagOctetValue wireBytes; 0] in
  let! p := g_append p (format_time t) in
  let n := (hlen p - i - 12)%nat in
  if (128 <=? n + 10)%nat then Stop else g_bump_lengths p i n.

(* xproto/expr.go:123-137 appendExprDuration *)
Definition g_append_expr_duration (p : hslice) (tag : N) (d : Z) : go hslice :=
  let i := hlen p in
  let! p := g_append p [hdr tag wireBytes; 10; hdr tagExprType wireVarint; Expr_LITERAL;
                     hdr tagExprLiteral wireBytes; 6; hdr tagScalarType wireVarint; Scalar_V_OCTETS;
                     hdr tagScalarOctets wireBytes; 2; hdr tagOctetValue wireBytes; 0] in
  let! p := g_append_duration p d in
  g_bump_lengths p i (hlen p - i - 12).

(* xproto/expr.go:139-175 AppendExprString. *)
Definition g_append_expr_string (p : hslice) (tag : N) (s : bytes) (collation : N) : go hslice :=
  let n := length s in
  let n0 := (1 + sizev n + n)%nat in
  let n0 := if collation =? 0 then n0 else (n0 + (1 + size_varint collation))%nat in
  let n1 := (3 + sizev n0 + n0)%nat in
  let n2 := (3 + sizev n1 + n1)%nat in
  let! (p, b) := g_for_append p (1 + sizev n2 + n2) in
  let! i := g_put_uvarint b 1 (N.of_nat n2) in
  let! _ := g_put b 0 [hdr tag wireBytes] in
  let! b := g_from b (1 + i) in
  (* Expr *)
  let! i := g_put_uvarint b 3 (N.of_nat n1) in
  let! _ := g_put b 0 [hdr tagExprType wireVarint] in
  let! _ := g_put b 1 [Expr_LITERAL] in
  let! _ := g_put b 2 [hdr tagExprLiteral wireBytes] in
  let! b := g_from b (3 + i) in
  (* Scalar *)
  let! i := g_put_uvarint b 3 (N.of_nat n0) in
  let! _ := g_put b 0 [hdr tagScalarType wireVarint] in
  let! _ := g_put b 1 [Scalar_V_STRING] in
  let! _ := g_put b 2 [hdr tagScalarString wireBytes] in
  let! b := g_from b (3 + i) in
  (* Scalar_String *)
  let! b := (if collation =? 0 then Return b else
      let! i := g_put_uvarint b 1 collation in
      let! _ := g_put b 0 [hdr tagStringCollation wireVarint] in
      g_from b (1 + i)) in
  let! _ := g_put b 0 [hdr tagStringValue wireBytes] in
  let! i := g_put_uvarint b 1 (N.of_nat n) in
  let! _ := g_copy b (1 + i) s in
  Return p.

(* xproto/expr.go:219-256 AppendExprBytesString; 177-217 AppendExprBytes is the same code for a non-nil slice *)
Definition g_append_expr_bytes_string (p : hslice) (tag : N) (str : bytes) (contentType : N) : go hslice :=
  let n := length str in
  let n0 := (1 + sizev n + n)%nat in
  let n0 := if contentType =? 0 then n0 else (n0 + (1 + size_varint contentType))%nat in
  let n1 := (3 + sizev n0 + n0)%nat in
  let n2 := (3 + sizev n1 + n1)%nat in
  let! (p, b) := g_for_append p (1 + sizev n2 + n2) in
  let! i := g_put_uvarint b 1 (N.of_nat n2) in
  let! _ := g_put b 0 [hdr tag wireBytes] in
  let! b := g_from b (1 + i) in
  (* Expr *)
  let! i := g_put_uvarint b 3 (N.of_nat n1) in
  let! _ := g_put b 0 [hdr tagExprType wireVarint] in
  let! _ := g_put b 1 [Expr_LITERAL] in
  let! _ := g_put b 2 [hdr tagExprLiteral wireBytes] in
  let! b := g_from b (3 + i) in
  (* Scalar *)
  let! i := g_put_uvarint b 3 (N.of_nat n0) in
  let! _ := g_put b 0 [hdr tagScalarType wireVarint] in
  let! _ := g_put b 1 [Scalar_V_OCTETS] in
  let! _ := g_put b 2 [hdr tagScalarOctets wireBytes] in
  let! b := g_from b (3 + i) in
  (* Scalar_Octets *)
  let! b := (if contentType =? 0 then Return b else
      let! i := g_put_uvarint b 1 contentType in
      let! _ := g_put b 0 [hdr tagOctetContentType wireVarint] in
      g_from b (1 + i)) in
  let! i := g_put_uvarint b 1 (N.of_nat n) in
  let! _ := g_put b 0 [hdr tagOctetValue wireBytes] in
  let! _ := g_copy b (1 + i) str in
  Return p.

(* xproto/expr.go:177-217 AppendExprBytes *)
Definition g_append_expr_bytes (p : hslice) (tag : N) (bs : option bytes) (contentType : N) : go hslice :=
  match bs with
  | None => g_append_expr_null p tag
  | Some bs => g_append_expr_bytes_string p tag bs contentType
  end.

(* xproto/expr.go:393-413 AppendExprColumn *)
Definition g_append_expr_column (p : hslice) (tag : N) (name : bytes) : go hslice :=
  let n := length name in
  let n0 := (1 + sizev n + n)%nat in
  let n1 := (3 + sizev n0 + n0)%nat in
  let! (p, b) := g_for_append p (1 + sizev n1 + n1) in
  let! _ := g_put b 0 [hdr tag wireBytes] in
  let! k := g_put_uvarint b 1 (N.of_nat n1) in
  let i := (1 + k)%nat in
  let! _ := g_put b i [hdr tagExprType wireVarint] in
  let i := (i + 1)%nat in
  let! _ := g_put b i [Expr_IDENT] in
  let i := (i + 1)%nat in
  let! _ := g_put b i [hdr tagExprIdentifier wireBytes] in
  let i := (i + 1)%nat in
  let! k := g_put_uvarint b i (N.of_nat n0) in
  let i := (i + k)%nat in
  let! _ := g_put b i [hdr tagColumnIdentifierName wireBytes] in
  let i := (i + 1)%nat in
  let! k := g_put_uvarint b i (N.of_nat n) in
  let i := (i + k)%nat in
  let! _ := g_copy b i name in
  Return p.

(* xproto/expr.go:415-423 AppendExprPlaceholder *)
Definition g_append_expr_placeholder (p : hslice) (tag pos : N) : go hslice :=
  let n := size_varint pos in
  let! p := g_append p [hdr tag wireBytes; byte (3 + byte (N.of_nat n));
              hdr tagExprType wireVarint; Expr_PLACEHOLDER; hdr tagExprPosition wireVarint;
              b80 pos; b80 (N.shiftr pos 7); b80 (N.shiftr pos 14); b80 (N.shiftr pos 21); byte (N.shiftr pos 28)] in
  g_mask_truncate p (n + (hlen p - 5)).

(* xproto/expr.go:425-435 AppendExprVariable *)
Definition g_append_expr_variable (p : hslice) (tag : N) (name : bytes) : go hslice :=
  let x := nlen name in
  let n := size_varint x in
  let! p := g_append p [hdr tag wireBytes; byte (3 + byte (N.of_nat n + x));
              hdr tagExprType wireVarint; Expr_VARIABLE; hdr tagExprVariable wireBytes;
              b80 x; b80 (N.shiftr x 7); b80 (N.shiftr x 14); b80 (N.shiftr x 21); b80 (N.shiftr x 28);
              b80 (N.shiftr x 35); b80 (N.shiftr x 42); b80 (N.shiftr x 49); byte (N.shiftr x 56); 1] in
  let! p := g_mask_truncate p (n + (hlen p - 10)) in
  g_append p name.

(* xproto/expr.go:326-344, the part of AppendExprOperator after the parameters have been
   appended; i is the length of the slice before them.
   Simplification: len p - i is 0 rather than negative if user code returned, without an error, a
   slice shorter than the one it was given; the theorems assume it does not. *)
Definition g_operator_header (p : hslice) (i : nat) (tag : N) (name : bytes) : go hslice :=
  let nParams := (hlen p - i)%nat in
  let nOperator := (1 + sizev (length name) + length name + nParams)%nat in
  let nExpr := (3 + sizev nOperator + nOperator)%nat in
  let! p := g_insert p i (1 + sizev nExpr + nExpr - nParams) in
  let! _ := g_put p i [hdr tag wireBytes] in
  let i := (i + 1)%nat in
  let! k := g_put_uvarint p i (N.of_nat nExpr) in
  let i := (i + k)%nat in
  let! _ := g_put p i [hdr tagExprType wireVarint] in
  let i := (i + 1)%nat in
  let! _ := g_put p i [Expr_OPERATOR] in
  let i := (i + 1)%nat in
  let! _ := g_put p i [hdr tagExprOperator wireBytes] in
  let i := (i + 1)%nat in
  let! k := g_put_uvarint p i (N.of_nat nOperator) in
  let i := (i + k)%nat in
  let! _ := g_put p i [hdr tagOperatorName wireBytes] in
  let i := (i + 1)%nat in
  let! k := g_put_uvarint p i (nlen name) in
  let i := (i + k)%nat in
  let! _ := g_copy p i name in
  Return p.

(* xproto/expr.go:366-390, the part of AppendExprFunctionCall after the parameters. len p - i as in
   g_operator_header. *)
Definition g_call_header (p : hslice) (i : nat) (tag : N) (name : bytes) : go hslice :=
  let nParams := (hlen p - i)%nat in
  let nIdentifier := (1 + sizev (length name) + length name)%nat in
  let nFuncCall := (1 + sizev nIdentifier + nIdentifier + nParams)%nat in
  let nExpr := (3 + sizev nFuncCall + nFuncCall)%nat in
  let! p := g_insert p i (1 + sizev nExpr + nExpr - nParams) in
  let! _ := g_put p i [hdr tag wireBytes] in
  let i := (i + 1)%nat in
  let! k := g_put_uvarint p i (N.of_nat nExpr) in
  let i := (i + k)%nat in
  let! _ := g_put p i [hdr tagExprType wireVarint] in
  let i := (i + 1)%nat in
  let! _ := g_put p i [Expr_FUNC_CALL] in
  let i := (i + 1)%nat in
  let! _ := g_put p i [hdr tagExprFunctionCall wireBytes] in
  let i := (i + 1)%nat in
  let! k := g_put_uvarint p i (N.of_nat nFuncCall) in
  let i := (i + k)%nat in
  let! _ := g_put p i [hdr tagFunctionCallName wireBytes] in
  let i := (i + 1)%nat in
  let! k := g_put_uvarint p i (N.of_nat nIdentifier) in
  let i := (i + k)%nat in
  let! _ := g_put p i [hdr tagIdentifierName wireBytes] in
  let i := (i + 1)%nat in
  let! k := g_put_uvarint p i (nlen name) in
  let i := (i + k)%nat in
  let! _ := g_copy p i name in
  Return p.

(* The AppendExpr method of a non-pointer type, if it has one:
   expr.go:20-22, 33-35, 46-48, 59-61, 72-74, 84-86, and user types. *)
Definition g_expr_method (v : gvalue) : option (hslice -> N -> go (hslice * option err)) :=
  match v with
  | VStr s c => Some (fun p tag => g_okm (g_append_expr_string p tag s c))
  | VXml b => Some (fun p tag => g_okm (g_append_expr_bytes p tag b ContentTypeXML))
  | VXmlString s => Some (fun p tag => g_okm (g_append_expr_bytes_string p tag s ContentTypeXML))
  | VJson b => Some (fun p tag => g_okm (g_append_expr_bytes p tag b ContentTypeJSON))
  | VJsonString s => Some (fun p tag => g_okm (g_append_expr_bytes_string p tag s ContentTypeJSON))
  | VGeometry b => Some (fun p tag => g_okm (g_append_expr_bytes p tag b ContentTypeGeometry))
  | VUser _ m => option_map g_user m
  | _ => None
  end.

(* for j, x := range xs { p, err = f(p, x); if err != nil { return p, wrap(j, err) } }
   xproto/expr.go:319-325, 359-365; xproto/insert.go:64-70 *)
Definition g_each {A} (f : A -> hslice -> go (hslice * option err)) (wrap : nat -> err -> err) :
    nat -> list A -> hslice -> go (hslice * option err) :=
  fix g_each j xs p :=
  match xs with
  | [] => Return (p, None)
  | x :: xs =>
      let! (p, e) := f x p in
      match e with
      | Some e => Return (p, Some (wrap j e))
      | None => g_each (S j) xs p
      end
  end.

(* xproto/expr.go:264-311 appendExpr, and the functions it calls through AppendExprFunc:
   317-345 AppendExprOperator, 351-391 AppendExprFunctionCall, 393-435. *)
Fixpoint g_append_expr (v : gvalue) (p : hslice) (tag : N) {struct v} : go (hslice * option err) :=
  match v with
  | VNil => g_okm (g_append_expr_null p tag)
  | VBool b => g_okm (g_append_expr_bool p tag b)
  | VInt8 z | VInt16 z | VInt32 z | VInt64 z | VInt z => g_okm (g_append_expr_int64 p tag z)
  | VUint8 n | VUint16 n | VUint32 n | VUint64 n | VUint n => g_okm (g_append_expr_uint64 p tag n)
  | VString s => g_okm (g_append_expr_string p tag s 0)
  | VBytes b => g_okm (g_append_expr_bytes p tag b 0)
  | VFloat32 x => g_okm (g_append_expr_float32 p tag x)
  | VFloat64 x => g_okm (g_append_expr_float64 p tag x)
  | VTime t => g_okm (g_append_expr_time p tag t)
  | VDuration d => g_okm (g_append_expr_duration p tag d)
  | VFunc None => Stop
  | VFunc (Some f) => g_run_fun f p tag
  | VPtr iface v' =>
      match (if iface then None else g_expr_method v') with
      | Some m => m p tag
      | None => Return (p, Some EUnsupported)
      end
  | VNilPtr _ m => if m then Stop else Return (p, Some EUnsupported)
  | _ =>
      match g_expr_method v with
      | Some m => m p tag
      | None => Return (p, Some EUnsupported)
      end
  end
(* Calling an AppendExprFunc. *)
with g_run_fun (f : exprfun) (p : hslice) (tag : N) {struct f} : go (hslice * option err) :=
  match f with
  | EColumn name => g_okm (g_append_expr_column p tag name)
  | EVariable name => g_okm (g_append_expr_variable p tag name)
  | EPlaceholder pos => g_okm (g_append_expr_placeholder p tag pos)
  | EUserFn u => g_user u p tag
  | EOperator name params =>
      let i := hlen p in
      let! (p, e) := g_each (fun v p => g_append_expr v p tagOperatorParam) EParam 0 params p in
      match e with
      | Some e => Return (p, Some e)
      | None => g_okm (g_operator_header p i tag name)
      end
  | ECall name params =>
      let i := hlen p in
      let! (p, e) := g_each (fun v p => g_append_expr v p tagFunctionCallParam) EParam 0 params p in
      match e with
      | Some e => Return (p, Some e)
      | None => g_okm (g_call_header p i tag name)
      end
  end.

(* binary.LittleEndian.PutUint32(p[n:], uint32(len(p)-n-4)) *)
Definition g_patch_length (p : hslice) (n : nat) : go hslice :=
  let! _ := g_put p n (le32 (N.of_nat (hlen p - n - 4))) in
  Return p.

(* xproto/xproto.go:10-18 Reset *)
Definition g_msg_reset (p : hslice) (keepOpen : bool) : go hslice :=
  if keepOpen
  then g_append p [3; 0; 0; 0; SESS_RESET; hdr tagResetKeepOpen wireVarint; 1]
  else g_append p [1; 0; 0; 0; SESS_RESET].

(* for _, arg := range args { p, err = appendAny(p, tag, arg); if err != nil { return p, err } } *)
Definition g_append_args (tag : N) (args : list gvalue) (p : hslice) : go (hslice * option err) :=
  g_each (fun v p => g_append_any v p tag) (fun _ e => e) 0 args p.

(* xproto/xproto.go:27-45 StmtExecute *)
Definition g_stmt_execute (p : hslice) (stmt : bytes) (args : list gvalue) : go (hslice * option err) :=
  let x := nlen stmt in
  let n := hlen p in
  let! p := g_append p [0; 0; 0; 0; SQL_STMT_EXECUTE; hdr tagStmtExecuteStmt wireBytes;
              b80 x; b80 (N.shiftr x 7); b80 (N.shiftr x 14); b80 (N.shiftr x 21); b80 (N.shiftr x 28);
              b80 (N.shiftr x 35); b80 (N.shiftr x 42); b80 (N.shiftr x 49); b80 (N.shiftr x 56); 1] in
  let i := (hlen p + size_varint x - 10)%nat in
  let! p := g_mask_truncate p i in
  let! p := g_append p stmt in
  let! (p, e) := g_append_args tagStmtExecuteArgs args p in
  match e with
  | Some e => Return (p, Some e)
  | None => g_okm (g_patch_length p n)
  end.

(* xproto/xproto.go:47-76 Delete. criteria: None is a nil func. *)
Definition g_msg_delete (p : hslice) (name : bytes) (criteria : option exprfun) : go (hslice * option err) :=
  let s := hlen p in
  let n := length name in
  let n1 := (1 + sizev n + n)%nat in
  let! (p, b) := g_for_append p (4 + 1 + 1 + sizev n1 + n1) in
  let! k := g_put_uvarint b 6 (N.of_nat n1) in
  let i := (6 + k)%nat in
  let! _ := g_put b 4 [CRUD_DELETE] in
  let! _ := g_put b 5 [hdr tagDeleteCollection wireBytes] in
  let! _ := g_put b i [hdr tagCollectionName wireBytes] in
  let i := (i + 1)%nat in
  let! k := g_put_uvarint b i (N.of_nat n) in
  let i := (i + k)%nat in
  let! _ := g_copy b i name in
  let! (p, e) := match criteria with
               | None => Return (p, None)
               | Some f => g_run_fun f p tagDeleteCriteria
               end in
  let! p := g_patch_length p s in
  Return (p, e).

(* xproto/insert.go:43-55, the loop over the column names *)
Fixpoint g_insert_columns (names : list bytes) (p : hslice) : go hslice :=
  match names with
  | [] => Return p
  | name :: names =>
      let n := length name in
      let n0 := (1 + sizev n + n)%nat in
      let! (p, b) := g_for_append p (1 + sizev n0 + n0) in
      let! _ := g_put b 0 [hdr tagInsertProjection wireBytes] in
      let! k := g_put_uvarint b 1 (N.of_nat n0) in
      let j := (1 + k)%nat in
      let! _ := g_put b j [hdr tagColumnName wireBytes] in
      let j := (j + 1)%nat in
      let! k := g_put_uvarint b j (N.of_nat n) in
      let j := (j + k)%nat in
      let! _ := g_copy b j name in
      g_insert_columns names p
  end.

(* xproto/insert.go:27-57 Insert. The first four bytes (frame length) stay unwritten. *)
Definition g_msg_insert (p : hslice) (tableName : bytes) (names : list bytes) : go hslice :=
  let n := length tableName in
  let n0 := (1 + sizev n + n)%nat in
  let! (p, b) := g_for_append p (5 + 3 + sizev n0 + n0) in
  let! _ := g_put b 4 [CRUD_INSERT] in
  let! _ := g_put b 5 [hdr tagInsertCollection wireBytes] in
  let! k := g_put_uvarint b 6 (N.of_nat n0) in
  let i := (6 + k)%nat in
  let! _ := g_put b i [hdr tagCollectionName wireBytes] in
  let i := (i + 1)%nat in
  let! k := g_put_uvarint b i (N.of_nat n) in
  let i := (i + k)%nat in
  let! c := g_copy b i tableName in
  let i := (i + c)%nat in
  let! _ := g_put b i [hdr tagInsertDataModel wireVarint] in
  let i := (i + 1)%nat in
  let! _ := g_put b i [DataModel_TABLE] in
  g_insert_columns names p.

(* xproto/insert.go:59-77 AppendInsertRow.
   Simplification: len p - i is 0 rather than negative if user code returned, without an error, a
   slice shorter than the one it was given; the theorems assume it does not. *)
Definition g_append_insert_row (p : hslice) (row : list gvalue) : go (hslice * option err) :=
  let! p := g_append p [hdr tagInsertRow wireBytes; 0; 0] in
  let i := hlen p in
  let! (p, e) := g_each (fun v p => g_append_expr v p tagTypedRowField) EColumnErr 0 row p in
  match e with
  | Some e => Return (p, Some e)
  | None =>
      let n := (hlen p - i)%nat in
      let! p := (if (sizev n =? 2)%nat then Return p else
                   let! h := g_reslice p (i + sizev n - 2) in
                   let! t := g_from p i in
                   g_append_slice h t) in
      let! _ := g_put_uvarint p (i - 2) (N.of_nat n) in
      Return (p, None)
  end.

(* xproto/update.go:20-38 Update. The first four bytes (frame length) stay unwritten. *)
Definition g_msg_update (p : hslice) (name : bytes) (criteria : option exprfun) : go (hslice * option err) :=
  let n := length name in
  let n1 := (1 + sizev n + n)%nat in
  let! (p, b) := g_for_append p (4 + 1 + 3 + sizev n1 + n1) in
  let! k := g_put_uvarint b 6 (N.of_nat n1) in
  let i := (6 + k)%nat in
  let! _ := g_put b 4 [CRUD_UPDATE] in
  let! _ := g_put b 5 [hdr tagUpdateCollection wireBytes] in
  let! _ := g_put b i [hdr tagCollectionName wireBytes] in
  let i := (i + 1)%nat in
  let! k := g_put_uvarint b i (N.of_nat n) in
  let i := (i + k)%nat in
  let! c := g_copy b i name in
  let i := (i + c)%nat in
  let! _ := g_put b i [hdr tagUpdateDataModel wireVarint] in
  let i := (i + 1)%nat in
  let! _ := g_put b i [DataModel_TABLE] in
  match criteria with
  | None => Return (p, None)
  | Some f => g_run_fun f p tagUpdateCriteria
  end.

(* xproto/update.go:58-77, the part of AppendUpdateSet after the value has been appended. hlen p - i
   as in g_append_insert_row. *)
Definition g_set_header (p : hslice) (i : nat) (name : bytes) : go hslice :=
  let nV := (hlen p - i)%nat in
  let n := length name in
  let n1 := (1 + sizev n + n)%nat in
  let n2 := (3 + sizev n1 + n1 + nV)%nat in
  let! p := g_insert p i (1 + sizev n2 + n2 - nV) in
  let! _ := g_put p i [hdr tagUpdateUpdateOperation wireBytes] in
  let i := (i + 1)%nat in
  let! k := g_put_uvarint p i (N.of_nat n2) in
  let i := (i + k)%nat in
  let! _ := g_put p i [hdr tagUpdateOperationSource wireBytes] in
  let i := (i + 1)%nat in
  let! k := g_put_uvarint p i (N.of_nat n1) in
  let i := (i + k)%nat in
  let! _ := g_put p i [hdr tagColumnIdentifierName wireBytes] in
  let i := (i + 1)%nat in
  let! k := g_put_uvarint p i (N.of_nat n) in
  let i := (i + k)%nat in
  let! c := g_copy p i name in
  let i := (i + c)%nat in
  let! _ := g_put p i [hdr tagUpdateOperationOperation wireVarint] in
  let i := (i + 1)%nat in
  let! _ := g_put p i [UpdateOperation_SET] in
  Return p.

(* xproto/update.go:40-78 AppendUpdateSet *)
Definition g_append_update_set (p : hslice) (name : bytes) (value : gvalue) : go (hslice * option err) :=
  let i := hlen p in
  let! (p, e) := g_append_expr value p tagUpdateOperationValue in
  match e with
  | Some e => Return (p, Some e)
  | None => g_okm (g_set_header p i name)
  end.

(* xproto/prepare.go:11-43 Prepare *)
Definition g_msg_prepare (p : hslice) (id : N) (stmt : bytes) : go hslice :=
  let n := length stmt in
  let n0 := (1 + sizev n + n)%nat in
  let n1 := (3 + sizev n0 + n0)%nat in
  let n2 := (2 + size_varint id + sizev n1 + n1)%nat in
  let! (p, b) := g_for_append p (4 + 1 + n2) in
  let! k := g_put_uvarint b 6 id in
  let i := (6 + k)%nat in
  let! _ := g_put b 0 (le32 (N.of_nat (1 + n2))) in
  let! _ := g_put b 4 [PREPARE_PREPARE] in
  let! _ := g_put b 5 [hdr tagPrepareStmtId wireVarint] in
  let! _ := g_put b i [hdr tagPrepareStmt wireBytes] in
  let i := (i + 1)%nat in
  let! k := g_put_uvarint b i (N.of_nat n1) in
  let i := (i + k)%nat in
  let! _ := g_put b i [hdr tagPrepareOneOfType wireVarint] in
  let! _ := g_put b (i + 1) [Prepare_OneOfMessage_STMT] in
  let! _ := g_put b (i + 2) [hdr tagPrepareOneOfExecute wireBytes] in
  let i := (i + 3)%nat in
  let! k := g_put_uvarint b i (N.of_nat n0) in
  let i := (i + k)%nat in
  let! _ := g_put b i [hdr tagStmtExecuteStmt wireBytes] in
  let i := (i + 1)%nat in
  let! k := g_put_uvarint b i (N.of_nat n) in
  let i := (i + k)%nat in
  let! _ := g_copy b i stmt in
  Return p.

(* xproto/prepare.go:46-66 Execute *)
Definition g_msg_execute (p : hslice) (id : N) (args : list gvalue) : go (hslice * option err) :=
  let n := hlen p in
  let! p := g_append p [0; 0; 0; 0; PREPARE_EXECUTE; hdr tagExecuteStmtId wireVarint;
              b80 id; b80 (N.shiftr id 7); b80 (N.shiftr id 14); b80 (N.shiftr id 21); byte (N.shiftr id 28)] in
  let i := (hlen p - 5 + size_varint id)%nat in
  let! p := g_mask_truncate p i in
  let! (p, e) := g_append_args tagExecuteArgs args p in
  match e with
  | Some e => Return (p, Some e)
  | None => g_okm (g_patch_length p n)
  end.

(* xproto/prepare.go:69-79 Deallocate *)
Definition g_msg_deallocate (p : hslice) (id : N) : go hslice :=
  let n := size_varint id in
  let! p := g_append p [byte (2 + byte (N.of_nat n)); 0; 0; 0; PREPARE_DEALLOCATE; hdr tagDeallocateStmtId wireVarint;
              b80 id; b80 (N.shiftr id 7); b80 (N.shiftr id 14); b80 (N.shiftr id 21); byte (N.shiftr id 28)] in
  g_mask_truncate p (n + (hlen p - 5)).

Definition g_append_condition (c : open_condition) (p : hslice) : go hslice :=
  match c with
  (* xproto/expect.go:21-25 openConditionExpectNoErrorTrue *)
  | ONoError true => g_append p [hdr tagExpectOpenCond wireBytes; 5; hdr tagOpenConditionKey wireVarint; EXPECT_NO_ERROR;
                           hdr tagOpenConditionValue wireBytes; 1; 49]
  (* xproto/expect.go:27-31 openConditionExpectNoErrorFalse *)
  | ONoError false => g_append p [hdr tagExpectOpenCond wireBytes; 5; hdr tagOpenConditionKey wireVarint; EXPECT_NO_ERROR;
                           hdr tagOpenConditionValue wireBytes; 1; 48]
  (* xproto/expect.go:40-53 OpenConditionExpectFieldExists *)
  | OFieldExists field =>
      let n := nlen field in
      let n0 := 3 + N.of_nat (size_varint n) + n in
      let! p := g_append p [hdr tagExpectOpenCond wireBytes; b80 n0; b80 (N.shiftr n0 7); b80 (N.shiftr n0 14);
                  b80 (N.shiftr n0 21); byte (N.shiftr n0 28)] in
      let i := (hlen p - 5 + size_varint n0)%nat in
      let! p := g_mask_truncate p i in
      let! p := g_append p [hdr tagOpenConditionKey wireVarint; EXPECT_FIELD_EXIST; hdr tagOpenConditionValue wireBytes;
                  b80 n; b80 (N.shiftr n 7); b80 (N.shiftr n 14); b80 (N.shiftr n 21); byte (N.shiftr n 28)] in
      let i := (hlen p - 5 + size_varint n)%nat in
      let! p := g_mask_truncate p i in
      g_append p field
  end.

Fixpoint g_append_conditions (cs : list open_condition) (p : hslice) : go hslice :=
  match cs with
  | [] => Return p
  | c :: cs => let! p := g_append_condition c p in g_append_conditions cs p
  end.

(* xproto/expect.go:62-71 ExpectOpen *)
Definition g_expect_open (p : hslice) (op : N) (conditions : list open_condition) : go hslice :=
  let i := hlen p in
  let! p := g_append p [0; 0; 0; 0; EXPECT_OPEN; hdr tagExpectOpenOp wireVarint; byte op] in
  let! p := g_append_conditions conditions p in
  g_patch_length p i.

(* xproto/expect.go:73-75 ExpectClose *)
Definition g_expect_close (p : hslice) : go hslice := g_append p [1; 0; 0; 0; EXPECT_CLOSE].


(* Every method starts with: if b.disabled { panic }; if b.err != nil { return } *)
Definition g_guarded (b : hbuilder) (m : hslice -> go (hslice * option err)) : go hbuilder :=
  if hdisabled b then Stop else
  match hberr b with
  | Some _ => Return b
  | None => let! (p, e) := m (hbuf b) in Return (mkhb p e (hdisabled b))
  end.

(* builder.go:65-73 StmtExecute *)
Definition g_b_stmt_execute (stmt : bytes) (args : list gvalue) (b : hbuilder) : go hbuilder :=
  g_guarded b (fun p => g_stmt_execute p stmt args).

(* builder.go:119-128, the loop over the rows of Insert *)
Fixpoint g_insert_rows (ncols i : nat) (rows : list (list gvalue)) (p : hslice) : go (hslice * option err) :=
  match rows with
  | [] => Return (p, None)
  | row :: rows =>
      if (length row =? ncols)%nat then
        let! (p, e) := g_append_insert_row p row in
        match e with
        | Some e => Return (p, Some e)
        | None => g_insert_rows ncols (S i) rows p
        end
      else Return (p, Some (ERowLen i ncols (length row)))
  end.

(* builder.go:116-129, Insert after the checks *)
Definition g_do_insert (name : bytes) (columns : list bytes) (rows : list (list gvalue)) (p : hslice) :
    go (hslice * option err) :=
  let n := hlen p in
  let! p := g_msg_insert p name columns in
  let! (p, e) := g_insert_rows (length columns) 0 rows p in
  match e with
  | Some e => Return (p, Some e)
  | None => g_okm (g_patch_length p n)
  end.

(* builder.go:169-174, the loop of Update over the map *)
Fixpoint g_update_sets (set : list (bytes * gvalue)) (p : hslice) : go (hslice * option err) :=
  match set with
  | [] => Return (p, None)
  | (k, v) :: set =>
      let! (p, e) := g_append_update_set p k v in
      match e with
      | Some e => Return (p, Some e)
      | None => g_update_sets set p
      end
  end.

(* builder.go:163-175, Update after the checks *)
Definition g_do_update (name : bytes) (criteria : option exprfun) (set : list (bytes * gvalue)) (p : hslice) :
    go (hslice * option err) :=
  let n := hlen p in
  let! (p, e) := g_msg_update p name criteria in
  match e with
  | Some e => Return (p, Some e)
  | None =>
      let! (p, e) := g_update_sets set p in
      match e with
      | Some e => Return (p, Some e)
      | None => g_okm (g_patch_length p n)
      end
  end.

(* A method call on builder lvl from inside an InsertF/UpdateF callback, as Builder.use_outer. *)
Definition g_use_outer (dis : list bool) (lvl : nat) : go unit :=
  match nth_error dis lvl with
  | Some false => Return tt
  | _ => Stop
  end.

(* crud.go:14-18 Insert.Row, called by the callback of InsertF *)
Fixpoint g_run_iops (dis : list bool) (ops : list iop) (p : hslice) (e : option err) : go (hslice * option err) :=
  match ops with
  | [] => Return (p, e)
  | IRow row :: ops =>
      match e with
      | Some e => g_run_iops dis ops p (Some e)
      | None => let! (p, e) := g_append_insert_row p row in g_run_iops dis ops p e
      end
  | IOuter lvl :: ops => let! _ := g_use_outer dis lvl in g_run_iops dis ops p e
  end.

(* crud.go:45-49 Update.Set, called by the callback of UpdateF *)
Fixpoint g_run_uops (dis : list bool) (ops : list uop) (p : hslice) (e : option err) : go (hslice * option err) :=
  match ops with
  | [] => Return (p, e)
  | USet name v :: ops =>
      match e with
      | Some e => g_run_uops dis ops p (Some e)
      | None => let! (p, e) := g_append_update_set p name v in g_run_uops dis ops p e
      end
  | UOuter lvl :: ops => let! _ := g_use_outer dis lvl in g_run_uops dis ops p e
  end.

(* crud.go:31-37 InsertF after the checks *)
Definition g_do_insert_f (dis : list bool) (name : bytes) (columns : list bytes) (ops : list iop) (p : hslice) :
    go (hslice * option err) :=
  let n := hlen p in
  let! p := g_msg_insert p name columns in
  let! (p, e) := g_run_iops dis ops p None in
  let! p := g_patch_length p n in
  Return (p, e).

(* crud.go:58-65 UpdateF after the checks *)
Definition g_do_update_f (dis : list bool) (name : bytes) (criteria : option exprfun) (ops : list uop) (p : hslice) :
    go (hslice * option err) :=
  let n := hlen p in
  let! (p, e) := g_msg_update p name criteria in
  let! (p, e) := g_run_uops dis ops p e in
  let! p := g_patch_length p n in
  Return (p, e).

(* builder.go:65-188, crud.go:24-66 *)
Definition g_exec_call (dis : list bool) (c : call) (b : hbuilder) : go hbuilder :=
  g_guarded b (fun p =>
    match c with
    | CStmtExecute stmt args => g_stmt_execute p stmt args
    | CPrepare id stmt => g_okm (g_msg_prepare p id stmt)
    | CExecute id args => g_msg_execute p id args
    | CDeallocate id => g_okm (g_msg_deallocate p id)
    | CInsert name columns rows => g_do_insert name columns rows p
    | CInsertF name columns ops _ => g_do_insert_f dis name columns ops p
    | CUpdate name criteria set => g_do_update name criteria set p
    | CUpdateF name criteria ops _ => g_do_update_f dis name criteria ops p
    | CDelete name criteria => g_msg_delete p name criteria
    end).

(* builder.go:132-154 InsertRow *)
Definition g_b_insert_row (name : bytes) (columns : list bytes) (row : list gvalue) (b : hbuilder) :
    go (hbuilder * option exprfun) :=
  if hdisabled b then Stop else
  match hberr b with
  | Some _ => Return (b, None)
  | None =>
      let n := hlen (hbuf b) in
      let! p := g_msg_insert (hbuf b) name columns in
      let! (p, e) := g_append_insert_row p row in
      match e with
      | Some e => Return (mkhb p (Some e) (hdisabled b), None)
      | None =>
          let! p := g_patch_length p n in
          let id := h_insert_id p in
          let! b' := g_b_stmt_execute (s2b "SET " ++ id ++ s2b " = LAST_INSERT_ID()") [] (mkhb p None (hdisabled b)) in
          Return (b', Some (EVariable id))
      end
  end.

(* builder.go:198-215, the part of Tx before the callback *)
Definition g_tx_begin (isolationLevel : N) (b : hbuilder) : go (hbuilder * bool) :=
  let start (b : hbuilder) (s : bytes) := let! b := g_b_stmt_execute s [] b in Return (b, true) in
  let set_then (s : bytes) :=
    let! b := g_b_stmt_execute s [] b in start b (s2b "START TRANSACTION") in
  match isolationLevel with
  | 0 => start b (s2b "START TRANSACTION")
  | 1 => set_then (s2b "SET TRANSACTION ISOLATION LEVEL READ UNCOMMITTED")
  | 2 => set_then (s2b "SET TRANSACTION ISOLATION LEVEL READ COMMITTED")
  | 3 => set_then (s2b "SET TRANSACTION ISOLATION LEVEL REPEATABLE READ")
  | 4 => set_then (s2b "SET TRANSACTION ISOLATION LEVEL SERIALIZABLE")
  | 5 => start b (s2b "START TRANSACTION WITH CONSISTENT SNAPSHOT")
  | _ => Return (mkhb (hbuf b) (Some EIsolation) (hdisabled b), false)
  end.

(* The part of Tx / ExpectFailOnError before b.call(f): builder.go:52-59, 191-215 *)
Definition g_block_begin (k : block) (b : hbuilder) : go (hbuilder * bool) :=
  if hdisabled b then Stop else
  match hberr b with
  | Some _ => Return (b, false)
  | None =>
      match k with
      | KTx lvl => g_tx_begin lvl b
      | KExpectFailOnError ctx =>
          let! p := g_expect_open (hbuf b) ctx [ONoError true] in
          Return (mkhb p None (hdisabled b), true)
      end
  end.

(* The part after b.call(f): builder.go:61, 217 *)
Definition g_block_end (k : block) (b : hbuilder) : go hbuilder :=
  match k with
  | KTx _ => g_b_stmt_execute (s2b "COMMIT") [] b
  | KExpectFailOnError _ => let! p := g_expect_close (hbuf b) in Return (mkhb p (hberr b) (hdisabled b))
  end.

(* Running a program on the builders in scope, as Builder.run. A child builder starts with the same slice header as its
   parent (builder.go:31-43), so both refer to the same array until the child's buffer has to grow. *)
Fixpoint g_run (pr : prog) (st : list hbuilder) : go (list hbuilder * list (option exprfun)) :=
  match pr with
  | Ret _ out => Return (st, out)
  | PCall lvl c next =>
      match nth_error st lvl with
      | None => Stop
      | Some b =>
          let! b' := g_exec_call (set_nth (map hdisabled st) lvl true) c b in
          g_run next (set_nth st lvl b')
      end
  | PInsertRow lvl name columns row next =>
      match nth_error st lvl with
      | None => Stop
      | Some b =>
          let! (b', f) := g_b_insert_row name columns row b in
          g_run (next f) (set_nth st lvl b')
      end
  | PBlock lvl k body next =>
      match nth_error st lvl with
      | None => Stop
      | Some b =>
          let! (b1, entered) := g_block_begin k b in
          if entered then
            let child := mkhb (hbuf b1) (hberr b1) false in
            let! (st2, out) := g_run body (child :: set_nth st lvl (mkhb (hbuf b1) (hberr b1) true)) in
            match st2 with
            | [] => Stop
            | child :: st2 =>
                let! b2 := g_block_end k (mkhb (hbuf child) (hberr child) false) in
                g_run (next out) (set_nth st2 lvl b2)
            end
          else g_run (next []) (set_nth st lvl b1)
      end
  end.

(* xpipe.go:14-16 New *)
Definition g_new_pipe (n : nat) : go hbuilder :=
  let! p := g_make 0 n in Return (mkhb p None false).

(* builder.go:220-226 reset, xpipe.go:23-25 Reset *)
Definition g_reset (b : hbuilder) : go hbuilder :=
  if hdisabled b then Stop else
  let! p := g_reslice (hbuf b) 0 in Return (mkhb p None (hdisabled b)).

(* builder.go:228-236 send, xpipe.go:18-21 Send: the slice that is handed to the Sender, not a copy of it *)
Definition g_send (b : hbuilder) : go (hslice + err) :=
  if hdisabled b then Stop else
  match hberr b with
  | Some e => Return (inr e)
  | None => Return (inl (hbuf b))
  end.

End Model.
