(* The Go values an xtorm user passes as interface{}. *)
From Coq Require Import List NArith ZArith.
From Verif Require Import Base GoSlice Text.
Import ListNotations.

(* User supplied encoders: AppendAny / AppendExpr methods and AppendExprFunc closures. Any
   function of the slice and the tag; simplification: no hidden state. *)
Definition ufun := slice -> N -> res (slice * option err).

(* One constructor per dynamic type the type switches of xproto/any.go:351-410 and
   xproto/expr.go:268-309 tell apart.
   Integers carry their value, floats their IEEE bits, []byte is an option (None is nil). *)
Inductive gvalue :=
| VNil
| VInt (z : Z) | VInt8 (z : Z) | VInt16 (z : Z) | VInt32 (z : Z) | VInt64 (z : Z)
| VUint (n : N) | VUint8 (n : N) | VUint16 (n : N) | VUint32 (n : N) | VUint64 (n : N)
| VString (s : bytes)
| VBytes (b : option bytes)
| VBool (b : bool)
| VFloat32 (bits : N) | VFloat64 (bits : N)
| VTime (t : gtime)
| VDuration (d : Z)
| VStr (s : bytes) (collation : N)      (* xtorm.String, expr.go:11-14 *)
| VXml (b : option bytes)               (* xtorm.XML(b), expr.go:24-27 *)
| VXmlString (s : bytes)                (* xtorm.XMLString(s), expr.go:37-40 *)
| VJson (b : option bytes)              (* xtorm.JSON(b), expr.go:50-53 *)
| VJsonString (s : bytes)               (* xtorm.JSONString(s), expr.go:63-66 *)
| VGeometry (b : option bytes)          (* xtorm.Geometry(b), expr.go:76-78 *)
| VFunc (f : option exprfun)            (* xproto.AppendExprFunc; None is a nil func *)
| VPtr (iface : bool) (v : gvalue)      (* non-nil pointer; iface: a pointer to an interface variable holding v *)
| VNilPtr (any_method expr_method : bool) (* nil pointer *T; flags: T has a value-receiver AppendAny / AppendExpr *)
| VUser (any_method expr_method : option ufun) (* any other type, with the methods it implements *)
with exprfun :=
| EColumn (name : bytes)
| EOperator (name : bytes) (params : list gvalue)
| ECall (name : bytes) (params : list gvalue)
| EVariable (name : bytes)
| EPlaceholder (pos : N)
| EUserFn (f : ufun).

(* A value of a type with neither method and no case in the switches: a struct, a map, ... *)
Definition VOther : gvalue := VUser None None.
