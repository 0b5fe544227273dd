(* Specification: what a Go value given to xtorm stands for on the MySQL side. *)
From Coq Require Import List NArith ZArith Bool.
From Verif Require Import Base GoSlice SpecWire SpecMsg Text Values.
Import ListNotations.
Open Scope N_scope.

(* ---- numbers and times as text ---- *)

(* Value of a string of decimal digits. *)
Fixpoint digits (acc : N) (bs : bytes) : option N :=
  match bs with
  | [] => Some acc
  | b :: r => if (48 <=? b) && (b <=? 57) then digits (10 * acc + (b - 48)) r else None
  end.
Definition decimal (bs : bytes) : option N := match bs with [] => None | _ => digits 0 bs end.
Definition signed_decimal (bs : bytes) : option Z :=
  match bs with
  | 45 :: r => option_map (fun n => (- Z.of_N n)%Z) (decimal r)
  | _ => option_map Z.of_N (decimal bs)
  end.

(* The text "YYYY-MM-DD hh:mm:ss.nnnnnnnnn" of a wall clock time. *)
Definition text_of_time (txt : bytes) (t : gtime) : Prop :=
  exists year month day hour min sec nsec,
    txt = year ++ [45] ++ month ++ [45] ++ day ++ [32] ++ hour ++ [58] ++ min ++ [58] ++ sec ++ [46] ++ nsec /\
    signed_decimal year = Some (t_year t) /\ (4 <= length year)%nat /\
    decimal month = Some (t_month t) /\ length month = 2%nat /\
    decimal day = Some (t_day t) /\ length day = 2%nat /\
    decimal hour = Some (t_hour t) /\ length hour = 2%nat /\
    decimal min = Some (t_min t) /\ length min = 2%nat /\
    decimal sec = Some (t_sec t) /\ length sec = 2%nat /\
    decimal nsec = Some (t_nsec t) /\ length nsec = 9%nat.

(* The text "[-]H:MM:SS" of a number of seconds; H has as many digits as needed. *)
Definition text_of_seconds (txt : bytes) (negative : bool) (seconds : N) : Prop :=
  exists hh mm ss h m s,
    txt = (if negative then [45] else []) ++ hh ++ [58] ++ mm ++ [58] ++ ss /\
    decimal hh = Some h /\ decimal mm = Some m /\ length mm = 2%nat /\ m < 60 /\
    decimal ss = Some s /\ length ss = 2%nat /\ s < 60 /\
    seconds = 3600 * h + 60 * m + s.

(* A duration in nanoseconds, truncated toward zero to seconds, with its sign. *)
Definition text_of_duration (txt : bytes) (d : Z) : Prop :=
  text_of_seconds txt (d <? 0)%Z (Z.abs_N d / 1000000000).

(* ---- what a value stands for ---- *)

(* An optional id that is left out when zero. *)
Definition nonzero (c : N) : option N := if c =? 0 then None else Some c.

(* nil []byte is NULL, any other []byte is octets. *)
Definition octets (b : option bytes) (content_type : option N) : scalar :=
  match b with None => SNull | Some v => SOctets v content_type end.

(* The scalar a plain Go value stands for. *)
Inductive lit_denotes : gvalue -> scalar -> Prop :=
| L_nil : lit_denotes VNil SNull
| L_int z : lit_denotes (VInt z) (SSint z)
| L_int8 z : lit_denotes (VInt8 z) (SSint z)
| L_int16 z : lit_denotes (VInt16 z) (SSint z)
| L_int32 z : lit_denotes (VInt32 z) (SSint z)
| L_int64 z : lit_denotes (VInt64 z) (SSint z)
| L_uint n : lit_denotes (VUint n) (SUint n)
| L_uint8 n : lit_denotes (VUint8 n) (SUint n)
| L_uint16 n : lit_denotes (VUint16 n) (SUint n)
| L_uint32 n : lit_denotes (VUint32 n) (SUint n)
| L_uint64 n : lit_denotes (VUint64 n) (SUint n)
| L_string s : lit_denotes (VString s) (SString s None)
| L_bytes b : lit_denotes (VBytes b) (octets b None)
| L_bool b : lit_denotes (VBool b) (SBool b)
| L_float32 x : lit_denotes (VFloat32 x) (SFloat x)
| L_float64 x : lit_denotes (VFloat64 x) (SDouble x)
| L_time t txt : text_of_time txt t -> lit_denotes (VTime t) (SOctets txt None)
| L_duration d txt : text_of_duration txt d -> lit_denotes (VDuration d) (SOctets txt None)
| L_str s c : lit_denotes (VStr s c) (SString s (nonzero c))
| L_geometry b : lit_denotes (VGeometry b) (octets b (Some 1))
| L_json b : lit_denotes (VJson b) (octets b (Some 2))
| L_json_string s : lit_denotes (VJsonString s) (SOctets s (Some 2))
| L_xml b : lit_denotes (VXml b) (octets b (Some 3))
| L_xml_string s : lit_denotes (VXmlString s) (SOctets s (Some 3)).

(* The contract of a user supplied encoder: for every field tag it appends, to any slice, the
   same bytes (less than 4 GiB), which are one protobuf field of that tag holding the encoding of x. *)
Definition appends {A} (decode : bytes -> option A) (u : ufun) (x : A) : Prop :=
  forall tag, 1 <= tag <= 15 -> exists bs payload,
    Forall (fun b => b < 256) bs /\ nlen bs < 2 ^ 32 /\
    dfields bs = Some [(tag, WLen payload)] /\ decode payload = Some x /\
    forall p, exists spare, u p tag = Ok (mk (data p ++ bs) spare, None).
Definition appends_any := appends dany.
Definition appends_expr := appends dexpr.

(* User code we speak about: it keeps the contract, or it never reports success. *)
Definition honest {A} (decode : bytes -> option A) (u : ufun) : Prop :=
  (exists x, appends decode u x) \/ (forall p tag q, u p tag <> Ok (q, None)).

(* Statement arguments: pointers are followed, nil pointers are NULL. *)
Inductive any_denotes : gvalue -> scalar -> Prop :=
| A_lit v s : lit_denotes v s -> any_denotes v s
| A_ptr i v s : any_denotes v s -> any_denotes (VPtr i v) s
| A_nilptr m1 m2 : any_denotes (VNilPtr m1 m2) SNull
| A_user u e s : appends_any u s -> any_denotes (VUser (Some u) e) s.

(* Expressions. *)
Inductive expr_denotes : gvalue -> expr -> Prop :=
| E_lit v s : lit_denotes v s -> expr_denotes v (XLiteral s)
| E_ptr i v e : expr_denotes v e -> expr_denotes (VPtr i v) e
| E_user a u e : appends_expr u e -> expr_denotes (VUser a (Some u)) e
| E_func f e : fun_denotes f e -> expr_denotes (VFunc (Some f)) e
with fun_denotes : exprfun -> expr -> Prop :=
| F_column name : fun_denotes (EColumn name) (XColumn name)
| F_variable name : fun_denotes (EVariable name) (XVariable name)
| F_placeholder n : fun_denotes (EPlaceholder n) (XPlaceholder n)
| F_operator name ps es : Forall2 expr_denotes ps es -> fun_denotes (EOperator name ps) (XOperator name es)
| F_call name ps es : Forall2 expr_denotes ps es -> fun_denotes (ECall name ps) (XCall name es)
| F_user u e : appends_expr u e -> fun_denotes (EUserFn u) e.

(* ---- which values exist ---- *)

Definition in_int (bits : N) (z : Z) : Prop := (- 2 ^ Z.of_N (bits - 1) <= z < 2 ^ Z.of_N (bits - 1))%Z.
Definition in_uint (bits : N) (n : N) : Prop := n < 2 ^ bits.

(* Strings consist of bytes, and none is 2^62 bytes long. *)
Definition go_string (s : bytes) : Prop := Forall (fun b => b < 256) s /\ nlen s < 2 ^ 62.
Definition go_bytes (b : option bytes) : Prop := match b with None => True | Some s => go_string s end.

(* The fields of a time.Time. *)
Definition go_time (t : gtime) : Prop :=
  (Z.abs (t_year t) < 10 ^ 12)%Z /\ 1 <= t_month t <= 12 /\ 1 <= t_day t <= 31 /\
  t_hour t < 24 /\ t_min t < 60 /\ t_sec t < 60 /\ t_nsec t < 10 ^ 9.

Definition all {A} (P : A -> Prop) : list A -> Prop :=
  fix all l := match l with [] => True | x :: r => P x /\ all r end.

Definition opt {A} (P : A -> Prop) (o : option A) : Prop := match o with None => True | Some x => P x end.

(* Facts Go's type system and runtime guarantee (w32: int and uint have 32 bits), and the
   contract for user code found inside the value. *)
Fixpoint well_formed (w32 : bool) (v : gvalue) : Prop :=
  match v with
  | VNil | VBool _ | VNilPtr _ _ => True
  | VInt z => in_int (if w32 then 32 else 64) z
  | VInt8 z => in_int 8 z
  | VInt16 z => in_int 16 z
  | VInt32 z => in_int 32 z
  | VInt64 z => in_int 64 z
  | VUint n => in_uint (if w32 then 32 else 64) n
  | VUint8 n => in_uint 8 n
  | VUint16 n => in_uint 16 n
  | VUint32 n => in_uint 32 n
  | VUint64 n => in_uint 64 n
  | VString s => go_string s
  | VBytes b => go_bytes b
  | VFloat32 x => in_uint 32 x
  | VFloat64 x => in_uint 64 x
  | VTime t => go_time t
  | VDuration d => in_int 64 d
  | VStr s c => go_string s /\ in_uint 64 c
  | VXml b | VJson b | VGeometry b => go_bytes b
  | VXmlString s | VJsonString s => go_string s
  | VFunc None => True
  | VFunc (Some f) => well_formed_fun w32 f
  | VPtr _ v => well_formed w32 v
  | VUser a e => opt (honest dany) a /\ opt (honest dexpr) e
  end
with well_formed_fun (w32 : bool) (f : exprfun) : Prop :=
  match f with
  | EColumn name | EVariable name => go_string name
  | EPlaceholder n => in_uint 32 n
  | EOperator name ps | ECall name ps => go_string name /\ all (well_formed w32) ps
  | EUserFn u => honest dexpr u
  end.

(* Values the code is known to encode wrongly (see DESIGN.md, Findings): variable names of more
   than 123 bytes, the smallest Duration, and with 32 bit ints durations of 2^32 seconds or more. *)
Fixpoint no_known_defect (w32 : bool) (v : gvalue) : Prop :=
  match v with
  | VDuration d => d <> (- 2 ^ 63)%Z /\ (w32 = true -> (Z.abs d < 2 ^ 32 * 1000000000)%Z)
  | VFunc (Some f) => no_known_defect_fun w32 f
  | VPtr _ v => no_known_defect w32 v
  | _ => True
  end
with no_known_defect_fun (w32 : bool) (f : exprfun) : Prop :=
  match f with
  | EVariable name => nlen name <= 123
  | EOperator _ ps | ECall _ ps => all (no_known_defect w32) ps
  | _ => True
  end.

(* No code reached from the value panics: no nil function, no nil pointer to a type whose
   methods have value receivers, and user code does not panic. User code that encodes
   expressions also returns, when it fails, at least the slice it was given. *)
Definition total (u : ufun) : Prop := forall p tag, u p tag <> Panic.
Definition tidy (u : ufun) : Prop := forall p tag, exists q e, u p tag = Ok (q, e) /\ (len p <= len q)%nat.
Fixpoint panic_free (v : gvalue) : Prop :=
  match v with
  | VFunc None => False
  | VFunc (Some f) => panic_free_fun f
  | VPtr _ v => panic_free v
  | VNilPtr any_method expr_method => any_method = false /\ expr_method = false
  | VUser a e => opt total a /\ opt tidy e
  | _ => True
  end
with panic_free_fun (f : exprfun) : Prop :=
  match f with
  | EOperator _ ps | ECall _ ps => all panic_free ps
  | EUserFn u => tidy u
  | _ => True
  end.

(* ---- which values are accepted ---- *)

Definition is_literal (v : gvalue) : Prop :=
  match v with VNil | VFunc _ | VPtr _ _ | VNilPtr _ _ | VUser _ _ => False | _ => True end.

(* Statement arguments: nil, literals, user types with a working AppendAny, nil pointers (unless the
   pointed-to type has that method) and pointers, of any depth, to any of these but nil. *)
Fixpoint arg_behind_pointer (v : gvalue) : Prop :=
  match v with
  | VPtr _ v => arg_behind_pointer v
  | VNilPtr any_method _ => any_method = false
  | VUser (Some u) _ => exists s, appends_any u s
  | _ => is_literal v
  end.
Definition arg_accepted (v : gvalue) : Prop := v = VNil \/ arg_behind_pointer v.

(* Expressions: nil, literals, user types with a working AppendExpr, pointers to values whose type
   has that method (the wrappers String, XML, JSON, Geometry and user types), function values. *)
Definition is_wrapper (v : gvalue) : Prop :=
  match v with VStr _ _ | VXml _ | VXmlString _ | VJson _ | VJsonString _ | VGeometry _ => True | _ => False end.
Fixpoint expr_accepted (v : gvalue) : Prop :=
  match v with
  | VNil => True
  | VPtr false v => match v with VUser _ (Some u) => exists e, appends_expr u e | _ => is_wrapper v end
  | VUser _ (Some u) => exists e, appends_expr u e
  | VFunc (Some f) => fun_accepted f
  | _ => is_literal v
  end
with fun_accepted (f : exprfun) : Prop :=
  match f with
  | EColumn _ | EVariable _ | EPlaceholder _ => True
  | EOperator _ ps | ECall _ ps => all expr_accepted ps
  | EUserFn u => exists e, appends_expr u e
  end.

(* A bound for the number of bytes a value takes. *)
Definition total_weight {A} (weight : A -> N) : list A -> N :=
  fix sum l := match l with [] => 0 | x :: r => weight x + sum r end.
Fixpoint weight (v : gvalue) : N :=
  match v with
  | VString s | VStr s _ | VXmlString s | VJsonString s | VBytes (Some s) | VXml (Some s) | VJson (Some s) | VGeometry (Some s) =>
      512 + nlen s
  | VUser _ _ => 2 ^ 32
  | VPtr _ v => weight v
  | VFunc (Some f) => fun_weight f
  | _ => 512
  end
with fun_weight (f : exprfun) : N :=
  match f with
  | EColumn name | EVariable name => 512 + nlen name
  | EPlaceholder _ => 512
  | EOperator name ps | ECall name ps => 512 + nlen name + total_weight weight ps
  | EUserFn _ => 2 ^ 32
  end.
