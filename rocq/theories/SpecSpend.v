(* Specification: the memory that is allocated while a unit of work is built. *)
From Coq Require Import List NArith Arith.
From Verif Require Import Base GoSlice Values SpecValue SpecProg Builder Mem.
Import ListNotations.
Local Open Scope nat_scope.

(* The number of bytes of all arrays allocated so far. *)
Definition allocated (m : mem) : nat := list_sum (map (@length N) m).

(* The runtime's append: where there is no room, the new array is at least a quarter larger than the
   old one, and not more than three times as large as needed (and 8 bytes). *)
Definition geometric (E : Env) : Prop := forall old new, old < new ->
  5 * old <= 4 * (new + length (fresh old new)) /\ length (fresh old new) <= 2 * new + 8.

(* Arguments that contain no user code, and operators and function calls only if [nested]. *)
Section Arguments.
Variable nested : Prop.

Fixpoint value_simple (v : gvalue) : Prop :=
  match v with
  | VFunc (Some f) => fun_simple f
  | VPtr _ v => value_simple v
  | VUser _ _ => False
  | _ => True
  end
with fun_simple (f : exprfun) : Prop :=
  match f with
  | EOperator _ ps | ECall _ ps => nested /\ all value_simple ps
  | EUserFn _ => False
  | _ => True
  end.

(* The same for calls, where Update with something to set counts as nested. *)
Definition call_simple (c : call) : Prop :=
  match c with
  | CStmtExecute _ args | CExecute _ args => Forall value_simple args
  | CPrepare _ _ | CDeallocate _ => True
  | CInsert _ _ rows => Forall (Forall value_simple) rows
  | CInsertF _ _ ops _ => Forall (Forall value_simple) (rows_of ops)
  | CUpdate _ cr set => opt fun_simple cr /\ Forall (fun v => nested /\ value_simple v) (map snd set)
  | CUpdateF _ cr ops _ => opt fun_simple cr /\ Forall (fun v => nested /\ value_simple v) (map snd (sets_of ops))
  | CDelete _ cr => opt fun_simple cr
  end.

(* The same for programs; they may use what InsertRow gives them, which is a variable. *)
Fixpoint prog_simple (pr : prog) : Prop :=
  match pr with
  | Ret _ out => Forall (opt fun_simple) out
  | PCall _ c next => call_simple c /\ prog_simple next
  | PInsertRow _ _ _ row next => Forall value_simple row /\ forall o, opt fun_simple o -> prog_simple (next o)
  | PBlock _ _ body next => prog_simple body /\ forall out, Forall (opt fun_simple) out -> prog_simple (next out)
  end.

End Arguments.
