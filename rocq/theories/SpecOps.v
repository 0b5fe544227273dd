(* Specification: the operators of the X Protocol, from /repo/protobuf/mysqlx_expr.proto:199-266. *)
From Coq Require Import String Ascii List NArith ZArith Bool.
From Coq Require Import List.
From Verif Require Import Base GoSlice SpecWire SpecMsg Text Values.
Import ListNotations.

(* The documented list: name and number of parameters. *)
Inductive arity := Exactly (n : nat) | Many.
Definition documented : list (string * arity) :=
  map (fun s => (s, Exactly 0)) ["*"; "default"]%string ++
  map (fun s => (s, Exactly 1)) ["!"; "sign_plus"; "sign_minus"; "~"]%string ++
  map (fun s => (s, Exactly 2)) ["&&"; "||"; "xor"; "=="; "!="; ">"; ">="; "<"; "<="; "&"; "|"; "^"; "<<"; ">>"; "+"; "-"; "*"; "/";
    "div"; "%"; "is"; "is_not"; "regexp"; "not_regexp"; "like"; "not_like"; "cast"; "cont_in"; "not_cont_in"; "overlaps"; "not_overlaps"]%string ++
  map (fun s => (s, Many)) ["in"; "not_in"]%string ++
  map (fun s => (s, Exactly 3)) ["between"; "between_not"; "date_add"; "date_sub"]%string.

(* The documented units of date_add and date_sub. *)
Definition date_units : list string :=
  ["MICROSECOND"; "SECOND"; "MINUTE"; "HOUR"; "DAY"; "WEEK"; "MONTH"; "QUARTER"; "YEAR"; "SECOND_MICROSECOND"; "MINUTE_MICROSECOND";
   "MINUTE_SECOND"; "HOUR_MICROSECOND"; "HOUR_SECOND"; "HOUR_MINUTE"; "DAY_MICROSECOND"; "DAY_SECOND"; "DAY_MINUTE"; "DAY_HOUR"]%string.

Definition takes (a : arity) (n : nat) : Prop := match a with Exactly m => n = m | Many => (1 <= n)%nat end.
Definition is_documented (f : exprfun) : Prop :=
  exists name a ps, f = EOperator (s2b name) ps /\ In (name, a) documented /\ takes a (length ps).

(* The operator of the documented name, applied to the given operands. *)
Definition applies (f : exprfun) (name : string) (ps : list gvalue) : Prop :=
  f = EOperator (s2b name) ps /\ exists a, In (name, a) documented /\ takes a (length ps).

(* What MySQL's operators compute on integers (not NULL; the bit operators on non-negative ones).
   None: not an integer operator, a division by zero, or a quotient that is not an integer. *)
Definition of_bool (b : bool) : option Z := Some (if b then 1 else 0)%Z.
Definition integer_operator (name : string) (xs : list Z) : option Z :=
  (match name, xs with
  | "!", [x] => of_bool (x =? 0)
  | "sign_plus", [x] => Some x
  | "sign_minus", [x] => Some (- x)
  | "&&", [x; y] => of_bool (negb (x =? 0) && negb (y =? 0))
  | "||", [x; y] => of_bool (negb (x =? 0) || negb (y =? 0))
  | "xor", [x; y] => of_bool (xorb (negb (x =? 0)) (negb (y =? 0)))
  | "==", [x; y] => of_bool (x =? y)
  | "!=", [x; y] => of_bool (negb (x =? y))
  | ">", [x; y] => of_bool (y <? x)
  | ">=", [x; y] => of_bool (y <=? x)
  | "<", [x; y] => of_bool (x <? y)
  | "<=", [x; y] => of_bool (x <=? y)
  | "&", [x; y] => Some (Z.land x y)
  | "|", [x; y] => Some (Z.lor x y)
  | "^", [x; y] => Some (Z.lxor x y)
  | "<<", [x; y] => Some (Z.shiftl x y mod 2 ^ 64)
  | ">>", [x; y] => Some (Z.shiftr x y)
  | "+", [x; y] => Some (x + y)
  | "-", [x; y] => Some (x - y)
  | "*", [x; y] => Some (x * y)
  | "/", [x; y] => if (y =? 0) || negb (x mod y =? 0) then None else Some (x / y)
  | "div", [x; y] => if y =? 0 then None else Some (Z.quot x y)
  | "%", [x; y] => if y =? 0 then None else Some (Z.rem x y)
  | "between", [x; y; z] => of_bool ((y <=? x) && (x <=? z))
  | "between_not", [x; y; z] => of_bool (negb ((y <=? x) && (x <=? z)))
  | "in", x :: ys => of_bool (existsb (Z.eqb x) ys)
  | "not_in", x :: ys => of_bool (negb (existsb (Z.eqb x) ys))
  | _, _ => None
  end)%Z%string.

(* An expression of operators over integer literals, and its value. *)
Inductive evaluates : expr -> Z -> Prop :=
| V_sint z : evaluates (XLiteral (SSint z)) z
| V_uint n : evaluates (XLiteral (SUint n)) (Z.of_N n)
| V_operator name es xs z : Forall2 evaluates es xs -> integer_operator name xs = Some z -> evaluates (XOperator (s2b name) es) z.
