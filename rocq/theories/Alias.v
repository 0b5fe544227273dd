(* Model of expressions that refer to memory of the caller: expr.go:341-369 (In, InV, NotIn, NotInV) and expr.go:412-416 (Concat) with
   the slice they are given, which the caller may change before the expression is encoded. Operators.v has the same functions
   on values that do not change. *)
From Coq Require Import String List NArith Arith.
From Coq Require Import List.
From Verif Require Import Base GoSlice Text Values ExprModel.
Import ListNotations.

(* What an interface{} holds: a value that refers to no memory, a []byte, or an expression, that is a function and what it has
   captured: a slice of its own that nobody else can change, or the caller's slice, by the addresses of its elements. *)
Inductive aval :=
| AVal (v : gvalue)
| ABytes (address : nat)
| AOperator (name : bytes) (params : list aval)
| ACall (name : bytes) (params : list nat).

(* The memory at some time: what is in each element of all []interface{}, and in each []byte. *)
Record memory := { element : nat -> aval; content : nat -> bytes }.

(* expr.go:342-349: v := make([]interface{}, 1+len(b)); v[0] = a; copy(v[1:], b). m is the memory when In is called. *)
Definition In (m : memory) (a : aval) (b : list nat) : aval := AOperator (s2b "in") (a :: map (element m) b).
(* expr.go:352-354: the caller may hand over a slice as b with b... *)
Definition InV (m : memory) (a : aval) (b : list nat) : aval := In m a b.
(* expr.go:357-364 *)
Definition NotIn (m : memory) (a : aval) (b : list nat) : aval := AOperator (s2b "not_in") (a :: map (element m) b).
(* expr.go:367-369 *)
Definition NotInV (m : memory) (a : aval) (b : list nat) : aval := NotIn m a b.
(* expr.go:147-151 and all others with fixed operands: the variadic arguments of AppendExprOperatorV are put
   into a new slice each time the function is called, from the captured variables. *)
Definition Eq (m : memory) (a b : aval) : aval := AOperator (s2b "==") [a; b].
(* expr.go:412-416: the function refers to the slice a itself. With Concat(xs...) that is the caller's xs. *)
Definition Concat (m : memory) (a : list nat) : aval := ACall (s2b "CONCAT") a.

Fixpoint all {A} (l : list (option A)) : option (list A) :=
  match l with
  | [] => Some []
  | x :: l => match x, all l with Some y, Some ys => Some (y :: ys) | _, _ => None end
  end.

(* The value that is found at x when it is encoded while the memory is m, following references at most fuel deep; None: further.
   Simplification: nothing changes the memory during the encoding. *)
Fixpoint found (fuel : nat) (m : memory) (x : aval) : option gvalue :=
  match fuel with
  | O => None
  | S fuel =>
      match x with
      | AVal v => Some v
      | ABytes a => Some (VBytes (Some (content m a)))
      | AOperator name ps => option_map (fun vs => VFunc (Some (EOperator name vs))) (all (map (found fuel m) ps))
      | ACall name ps => option_map (fun vs => VFunc (Some (ECall name vs))) (all (map (fun a => found fuel m (element m a)) ps))
      end
  end.

Section Model.
Context `{E : Env}.

(* xproto/expr.go:264-311 appendExpr of x, called while the memory is m. *)
Definition append_expr_at (fuel : nat) (m : memory) (x : aval) (p : slice) (tag : N) : option (res (slice * option err)) :=
  option_map (fun v => append_expr v p tag) (found fuel m x).
End Model.
