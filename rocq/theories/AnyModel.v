(* Model of /repo/xproto/any.go. *)
From Coq Require Import List NArith ZArith Arith.
From Verif Require Import Base GoSlice Varint Text Values.
Import ListNotations.
Open Scope N_scope.

(* xproto/any.go:21-26 *)
Definition tagAnyType : N := 1.
Definition tagAnyScalar : N := 2.

(* protobuf/mysqlx_datatypes: enum values *)
Definition Any_SCALAR : N := 1.
Definition Scalar_V_SINT : N := 1.
Definition Scalar_V_UINT : N := 2.
Definition Scalar_V_NULL : N := 3.
Definition Scalar_V_OCTETS : N := 4.
Definition Scalar_V_DOUBLE : N := 5.
Definition Scalar_V_FLOAT : N := 6.
Definition Scalar_V_BOOL : N := 7.
Definition Scalar_V_STRING : N := 8.

(* xproto/scalar.go:19-38 *)
Definition tagScalarType : N := 1.
Definition tagScalarSint : N := 2.
Definition tagScalarUint : N := 3.
Definition tagScalarOctets : N := 5.
Definition tagScalarDouble : N := 6.
Definition tagScalarFloat : N := 7.
Definition tagScalarBool : N := 8.
Definition tagScalarString : N := 9.
Definition tagStringValue : N := 1.
Definition tagStringCollation : N := 2.
Definition tagOctetValue : N := 1.
Definition tagOctetContentType : N := 2.

(* xproto/scalar.go:12-17, protobuf/mysqlx_resultset ContentType_BYTES *)
Definition ContentTypePlain : N := 0.
Definition ContentTypeGeometry : N := 1.
Definition ContentTypeJSON : N := 2.
Definition ContentTypeXML : N := 3.

Section Model.
Context `{E : Env}.

(* xproto/any.go:28-41 appendAnyUint8 *)
Definition append_any_uint8 (p : slice) (tag x : N) : slice :=
  if x <? 128 then
    append p [hdr tag wireBytes; 8; hdr tagAnyType wireVarint; Any_SCALAR;
              hdr tagAnyScalar wireBytes; 4;
              hdr tagScalarType wireVarint; Scalar_V_UINT; hdr tagScalarUint wireVarint; x]
  else
    append p [hdr tag wireBytes; 9; hdr tagAnyType wireVarint; Any_SCALAR;
              hdr tagAnyScalar wireBytes; 5;
              hdr tagScalarType wireVarint; Scalar_V_UINT; hdr tagScalarUint wireVarint; x; 1].

(* xproto/any.go:43-53 appendAnyUint16 *)
Definition append_any_uint16 (p : slice) (tag x : N) : res slice :=
  let n := size_varint x in
  let p := append p [hdr tag wireBytes; byte (7 + byte (N.of_nat n)); hdr tagAnyType wireVarint; Any_SCALAR;
              hdr tagAnyScalar wireBytes; byte (3 + byte (N.of_nat n));
              hdr tagScalarType wireVarint; Scalar_V_UINT; hdr tagScalarUint wireVarint;
              b80 x; b80 (N.shiftr x 7); byte (N.shiftr x 14)] in
  mask_truncate p (n + (len p - 3)).

(* xproto/any.go:55-65 appendAnyUint32 *)
Definition append_any_uint32 (p : slice) (tag x : N) : res slice :=
  let n := size_varint x in
  let p := append p [hdr tag wireBytes; byte (7 + byte (N.of_nat n)); hdr tagAnyType wireVarint; Any_SCALAR;
              hdr tagAnyScalar wireBytes; byte (3 + byte (N.of_nat n));
              hdr tagScalarType wireVarint; Scalar_V_UINT; hdr tagScalarUint wireVarint;
              b80 x; b80 (N.shiftr x 7); b80 (N.shiftr x 14); b80 (N.shiftr x 21); byte (N.shiftr x 28)] in
  mask_truncate p (n + (len p - 5)).

(* xproto/any.go:69-80 appendAnyUint64 *)
Definition append_any_uint64 (p : slice) (tag x : N) : res slice :=
  let n := size_varint x in
  let p := append p [hdr tag wireBytes; byte (7 + byte (N.of_nat n)); hdr tagAnyType wireVarint; Any_SCALAR;
              hdr tagAnyScalar wireBytes; byte (3 + byte (N.of_nat n));
              hdr tagScalarType wireVarint; Scalar_V_UINT; hdr tagScalarUint wireVarint;
              b80 x; b80 (N.shiftr x 7); b80 (N.shiftr x 14); b80 (N.shiftr x 21); b80 (N.shiftr x 28);
              b80 (N.shiftr x 35); b80 (N.shiftr x 42); b80 (N.shiftr x 49); byte (N.shiftr x 56); 1] in
  mask_truncate p (n + (len p - 10)).

(* (uintW(v) << 1) ^ uintW(v >> (W-1)) for an intW v: zigzag in W bits.
   xproto/any.go:83, 99, 112, 127; xproto/expr.go:71 *)
Definition zigzag (w : N) (v : Z) : N :=
  let m := (2 ^ Z.of_N w)%Z in
  N.lxor (N.shiftl (Z.to_N (v mod m)) 1 mod 2 ^ w) (Z.to_N (Z.shiftr v (Z.of_N w - 1) mod m)).

(* xproto/any.go:82-96 appendAnyInt8 *)
Definition append_any_int8 (p : slice) (tag : N) (v : Z) : slice :=
  let x := zigzag 8 v in
  if x <? 128 then
    append p [hdr tag wireBytes; 8; hdr tagAnyType wireVarint; Any_SCALAR;
              hdr tagAnyScalar wireBytes; 4;
              hdr tagScalarType wireVarint; Scalar_V_SINT; hdr tagScalarSint wireVarint; x]
  else
    append p [hdr tag wireBytes; 9; hdr tagAnyType wireVarint; Any_SCALAR;
              hdr tagAnyScalar wireBytes; 5;
              hdr tagScalarType wireVarint; Scalar_V_SINT; hdr tagScalarSint wireVarint; x; 1].

(* xproto/any.go:98-109 appendAnyInt16 *)
Definition append_any_int16 (p : slice) (tag : N) (v : Z) : res slice :=
  let x := zigzag 16 v in
  let n := size_varint x in
  let p := append p [hdr tag wireBytes; byte (7 + byte (N.of_nat n)); hdr tagAnyType wireVarint; Any_SCALAR;
              hdr tagAnyScalar wireBytes; byte (3 + byte (N.of_nat n));
              hdr tagScalarType wireVarint; Scalar_V_SINT; hdr tagScalarSint wireVarint;
              b80 x; b80 (N.shiftr x 7); byte (N.shiftr x 14)] in
  mask_truncate p (n + (len p - 3)).

(* xproto/any.go:111-122 appendAnyInt32 *)
Definition append_any_int32 (p : slice) (tag : N) (v : Z) : res slice :=
  let x := zigzag 32 v in
  let n := size_varint x in
  let p := append p [hdr tag wireBytes; byte (7 + byte (N.of_nat n)); hdr tagAnyType wireVarint; Any_SCALAR;
              hdr tagAnyScalar wireBytes; byte (3 + byte (N.of_nat n));
              hdr tagScalarType wireVarint; Scalar_V_SINT; hdr tagScalarSint wireVarint;
              b80 x; b80 (N.shiftr x 7); b80 (N.shiftr x 14); b80 (N.shiftr x 21); byte (N.shiftr x 28)] in
  mask_truncate p (n + (len p - 5)).

(* xproto/any.go:126-138 appendAnyInt64 *)
Definition append_any_int64 (p : slice) (tag : N) (v : Z) : res slice :=
  let x := zigzag 64 v in
  let n := size_varint x in
  let p := append p [hdr tag wireBytes; byte (7 + byte (N.of_nat n)); hdr tagAnyType wireVarint; Any_SCALAR;
              hdr tagAnyScalar wireBytes; byte (3 + byte (N.of_nat n));
              hdr tagScalarType wireVarint; Scalar_V_SINT; hdr tagScalarSint wireVarint;
              b80 x; b80 (N.shiftr x 7); b80 (N.shiftr x 14); b80 (N.shiftr x 21); b80 (N.shiftr x 28);
              b80 (N.shiftr x 35); b80 (N.shiftr x 42); b80 (N.shiftr x 49); byte (N.shiftr x 56); 1] in
  mask_truncate p (n + (len p - 10)).

(* xproto/any.go:335-340 appendAnyNull *)
Definition append_any_null (p : slice) (tag : N) : slice :=
  append p [hdr tag wireBytes; 6; hdr tagAnyType wireVarint; Any_SCALAR;
            hdr tagAnyScalar wireBytes; 2; hdr tagScalarType wireVarint; Scalar_V_NULL].

(* xproto/any.go:142-182 AppendAnyBytes on a non-nil slice; 186-223 AppendAnyBytesString is the same code.
   b is an offset into p: Go's b[k] is p[b+k]. *)
Definition append_any_bytes_string (p : slice) (tag : N) (str : bytes) (contentType : N) : res slice :=
  let n := length str in
  let n0 := (1 + sizev n + n)%nat in
  let n0 := if contentType =? ContentTypePlain then n0 else (n0 + (1 + size_varint contentType))%nat in
  let n1 := (3 + sizev n0 + n0)%nat in
  let n2 := (3 + sizev n1 + n1)%nat in
  let b := len p in
  let p := for_append p (1 + sizev n2 + n2) in
  do (p, i) <- put_uvarint p (b + 1) (N.of_nat n2);
  do p <- put p b [hdr tag wireBytes];
  let b := (b + (1 + i))%nat in
  (* Any *)
  do (p, i) <- put_uvarint p (b + 3) (N.of_nat n1);
  do p <- put p b [hdr tagAnyType wireVarint];
  do p <- put p (b + 1) [Any_SCALAR];
  do p <- put p (b + 2) [hdr tagAnyScalar wireBytes];
  let b := (b + (3 + i))%nat in
  (* Scalar *)
  do (p, i) <- put_uvarint p (b + 3) (N.of_nat n0);
  do p <- put p b [hdr tagScalarType wireVarint];
  do p <- put p (b + 1) [Scalar_V_OCTETS];
  do p <- put p (b + 2) [hdr tagScalarOctets wireBytes];
  let b := (b + (3 + i))%nat in
  (* Scalar_Octets *)
  do (p, b) <- (if contentType =? ContentTypePlain then Ok (p, b) else
      do (p, i) <- put_uvarint p (b + 1) contentType;
      do p <- put p b [hdr tagOctetContentType wireVarint];
      Ok (p, b + (1 + i))%nat);
  do (p, i) <- put_uvarint p (b + 1) (N.of_nat n);
  do p <- put p b [hdr tagOctetValue wireBytes];
  copy_at p (b + (1 + i)) str.

(* xproto/any.go:142-182 AppendAnyBytes *)
Definition append_any_bytes (p : slice) (tag : N) (bs : option bytes) (contentType : N) : res slice :=
  match bs with
  | None => Ok (append_any_null p tag)
  | Some bs => append_any_bytes_string p tag bs contentType
  end.

(* xproto/any.go:227-261 AppendAnyString *)
Definition append_any_string (p : slice) (tag : N) (s : bytes) (collation : N) : res slice :=
  let n := length s in
  let n0 := (1 + sizev n + n)%nat in
  let n0 := if collation =? 0 then n0 else (n0 + (1 + size_varint collation))%nat in
  let n1 := (3 + sizev n0 + n0)%nat in
  let n2 := (3 + sizev n1 + n1)%nat in
  let b := len p in
  let p := for_append p (1 + sizev n2 + n2) in
  do (p, i) <- put_uvarint p (b + 1) (N.of_nat n2);
  do p <- put p b [hdr tag wireBytes];
  let b := (b + (1 + i))%nat in
  (* Any *)
  do (p, i) <- put_uvarint p (b + 3) (N.of_nat n1);
  do p <- put p b [hdr tagAnyType wireVarint];
  do p <- put p (b + 1) [Any_SCALAR];
  do p <- put p (b + 2) [hdr tagAnyScalar wireBytes];
  let b := (b + (3 + i))%nat in
  (* Scalar *)
  do (p, i) <- put_uvarint p (b + 3) (N.of_nat n0);
  do p <- put p b [hdr tagScalarType wireVarint];
  do p <- put p (b + 1) [Scalar_V_STRING];
  do p <- put p (b + 2) [hdr tagScalarString wireBytes];
  let b := (b + (3 + i))%nat in
  (* Scalar_String *)
  do (p, b) <- (if collation =? 0 then Ok (p, b) else
      do (p, i) <- put_uvarint p (b + 1) collation;
      do p <- put p b [hdr tagStringCollation wireVarint];
      Ok (p, b + (1 + i))%nat);
  do (p, i) <- put_uvarint p (b + 1) (N.of_nat n);
  do p <- put p b [hdr tagStringValue wireBytes];
  copy_at p (b + (1 + i)) s.

(* p[i+11] += byte(n); p[i+9] += ...; p[i+5] += ...; p[i+1] += byte(n) in uint8 arithmetic:
   xproto/any.go:277-280, 293-296; xproto/expr.go:116-119, 132-135 *)
Definition bump_lengths (p : slice) (i n : nat) : res slice :=
  let add := fun b => byte (b + byte (N.of_nat n)) in
  do p <- upd p (i + 11) add;
  do p <- upd p (i + 9) add;
  do p <- upd p (i + 5) add;
  upd p (i + 1) add.

(* xproto/any.go:263-282 appendAnyTime *)
Definition append_any_time (p : slice) (tag : N) (t : gtime) : res slice :=
  let i := len p in
  let p := append (append p [hdr tag wireBytes; 10; hdr tagAnyType wireVarint; Any_SCALAR;
                     hdr tagAnyScalar wireBytes; 6; hdr tagScalarType wireVarint; Scalar_V_OCTETS;
                     hdr tagScalarOctets wireBytes; 2; hdr tagOctetValue wireBytes; 0]) (format_time t) in
  let n := (len p - i - 12)%nat in
  if (118 <=? n)%nat then Panic else bump_lengths p i n.

(* xproto/any.go:284-298 appendAnyDuration *)
Definition append_any_duration (p : slice) (tag : N) (d : Z) : res slice :=
  let i := len p in
  do p <- append_duration (append p [hdr tag wireBytes; 10; hdr tagAnyType wireVarint; Any_SCALAR;
                     hdr tagAnyScalar wireBytes; 6; hdr tagScalarType wireVarint; Scalar_V_OCTETS;
                     hdr tagScalarOctets wireBytes; 2; hdr tagOctetValue wireBytes; 0]) d;
  bump_lengths p i (len p - i - 12).

(* xproto/any.go:302-310 appendAnyFloat64; the argument is math.Float64bits(f) *)
Definition append_any_float64 (p : slice) (tag x : N) : slice :=
  append p [hdr tag wireBytes; 15; hdr tagAnyType wireVarint; Any_SCALAR;
            hdr tagAnyScalar wireBytes; 11; hdr tagScalarType wireVarint; Scalar_V_DOUBLE;
            hdr tagScalarDouble wireFixed64; byte x; byte (N.shiftr x 8); byte (N.shiftr x 16); byte (N.shiftr x 24);
            byte (N.shiftr x 32); byte (N.shiftr x 40); byte (N.shiftr x 48); byte (N.shiftr x 56)].

(* xproto/any.go:314-321 appendAnyFloat32; the argument is math.Float32bits(f) *)
Definition append_any_float32 (p : slice) (tag x : N) : slice :=
  append p [hdr tag wireBytes; 11; hdr tagAnyType wireVarint; Any_SCALAR;
            hdr tagAnyScalar wireBytes; 7; hdr tagScalarType wireVarint; Scalar_V_FLOAT;
            hdr tagScalarFloat wireFixed32; byte x; byte (N.shiftr x 8); byte (N.shiftr x 16); byte (N.shiftr x 24)].

(* xproto/any.go:325-331 appendAnyBool *)
Definition append_any_bool (p : slice) (tag : N) (b : bool) : slice :=
  append p [hdr tag wireBytes; 8; hdr tagAnyType wireVarint; Any_SCALAR;
            hdr tagAnyScalar wireBytes; 4; hdr tagScalarType wireVarint; Scalar_V_BOOL;
            hdr tagScalarBool wireVarint; encode_bool b].

Definition ok (p : slice) : res (slice * option err) := Ok (p, None).
Definition okm (m : res slice) : res (slice * option err) := do p <- m; Ok (p, None).

(* The AppendAny method of a non-pointer type, if it has one:
   expr.go:16-18, 29-31, 42-44, 55-57, 68-70, 80-82, and user types. *)
Definition any_method (v : gvalue) : option ufun :=
  match v with
  | VStr s c => Some (fun p tag => okm (append_any_string p tag s c))
  | VXml b => Some (fun p tag => okm (append_any_bytes p tag b ContentTypeXML))
  | VXmlString s => Some (fun p tag => okm (append_any_bytes_string p tag s ContentTypeXML))
  | VJson b => Some (fun p tag => okm (append_any_bytes p tag b ContentTypeJSON))
  | VJsonString s => Some (fun p tag => okm (append_any_bytes_string p tag s ContentTypeJSON))
  | VGeometry b => Some (fun p tag => okm (append_any_bytes p tag b ContentTypeGeometry))
  | VUser m _ => m
  | _ => None
  end.

(* The typeSwitch loop of xproto/any.go:350-410. A pointer *T has the methods of T unless T is
   an interface or itself a pointer. A nil interface found behind a pointer is not special-cased. *)
Fixpoint type_switch (v : gvalue) (p : slice) (tag : N) : res (slice * option err) :=
  match v with
  | VInt z => if word32 then okm (append_any_int32 p tag z) else okm (append_any_int64 p tag z)
  | VInt8 z => ok (append_any_int8 p tag z)
  | VInt16 z => okm (append_any_int16 p tag z)
  | VInt32 z => okm (append_any_int32 p tag z)
  | VInt64 z => okm (append_any_int64 p tag z)
  | VUint n => if word32 then okm (append_any_uint32 p tag n) else okm (append_any_uint64 p tag n)
  | VUint8 n => ok (append_any_uint8 p tag n)
  | VUint16 n => okm (append_any_uint16 p tag n)
  | VUint32 n => okm (append_any_uint32 p tag n)
  | VUint64 n => okm (append_any_uint64 p tag n)
  | VString s => okm (append_any_string p tag s 0)
  | VBytes b => okm (append_any_bytes p tag b ContentTypePlain)
  | VBool b => ok (append_any_bool p tag b)
  | VFloat32 x => ok (append_any_float32 p tag x)
  | VFloat64 x => ok (append_any_float64 p tag x)
  | VTime t => okm (append_any_time p tag t)
  | VDuration d => okm (append_any_duration p tag d)
  | VPtr iface v' =>
      match (if iface then None else any_method v') with
      | Some m => m p tag
      | None => type_switch v' p tag
      end
  | VNilPtr m _ => if m then Panic else ok (append_any_null p tag)
  | _ =>
      match any_method v with
      | Some m => m p tag
      | None => Ok (nil_slice, Some EUnsupported)
      end
  end.

(* xproto/any.go:346-411 appendAny *)
Definition append_any (v : gvalue) (p : slice) (tag : N) : res (slice * option err) :=
  match v with
  | VNil => ok (append_any_null p tag)
  | _ => type_switch v p tag
  end.

End Model.
