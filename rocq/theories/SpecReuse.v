(* Specification: when building a unit of work needs no new memory. *)
From Coq Require Import List NArith Arith.
From Verif Require Import Base GoSlice Values SpecValue SpecProg Builder.
Import ListNotations.
Local Open Scope nat_scope.

(* User code that encodes a value by appending to the slice it is given, as Go's append does: it
   never shrinks the slice, and works in place wherever there is room, which is: given a slice as
   large as the one it returned elsewhere, or 9 bytes more than it fills. *)
Definition in_place (u : ufun) : Prop := forall p q tag p', len q = len p -> u p tag = Ok (p', None) ->
  len p <= len p' /\ cap p <= cap p' /\
  (cap p' <= cap q \/ len p' + 9 <= cap q -> exists q', u q tag = Ok (q', None) /\ len q' = len p' /\ cap q' = cap q).

(* All user code found inside the value works in place. *)
Fixpoint value_in_place (v : gvalue) : Prop :=
  match v with
  | VFunc (Some f) => fun_in_place f
  | VPtr _ v => value_in_place v
  | VUser a e => opt in_place a /\ opt in_place e
  | _ => True
  end
with fun_in_place (f : exprfun) : Prop :=
  match f with
  | EOperator _ ps | ECall _ ps => all value_in_place ps
  | EUserFn u => in_place u
  | _ => True
  end.

Definition call_in_place (c : call) : Prop :=
  match c with
  | CStmtExecute _ args | CExecute _ args => Forall value_in_place args
  | CPrepare _ _ | CDeallocate _ => True
  | CInsert _ _ rows => Forall (Forall value_in_place) rows
  | CInsertF _ _ ops _ => Forall (Forall value_in_place) (rows_of ops)
  | CUpdate _ cr set => opt fun_in_place cr /\ Forall value_in_place (map snd set)
  | CUpdateF _ cr ops _ => opt fun_in_place cr /\ Forall value_in_place (map snd (sets_of ops))
  | CDelete _ cr => opt fun_in_place cr
  end.

(* All user code in the arguments of the program's calls does, whatever InsertRow returns. *)
Fixpoint prog_in_place (pr : prog) : Prop :=
  match pr with
  | Ret _ _ => True
  | PCall _ c next => call_in_place c /\ prog_in_place next
  | PInsertRow _ _ _ row next => Forall value_in_place row /\ forall o, prog_in_place (next o)
  | PBlock _ _ body next => prog_in_place body /\ forall out, prog_in_place (next out)
  end.

(* Running the program on b gives b', without error, and no call is refused. *)
Definition builds `{Env} (pr : prog) (b b' : builder) : Prop :=
  exists out, run pr [b] = Ok ([b'], out) /\ berr b' = None.

(* The pipe b is used for one unit of work after the other, with a Reset after each: its capacity
   when each of them is complete; None when one of them cannot be built. *)
Fixpoint capacities `{Env} (units : list prog) (b : builder) : option (list nat) :=
  match units with
  | [] => Some []
  | pr :: units =>
      match run pr [b] with
      | Ok ([b'], _) =>
          match berr b', reset b' with
          | None, Ok c => option_map (cons (cap (buf b'))) (capacities units c)
          | _, _ => None
          end
      | _ => None
      end
  end.

(* User code that never returns a smaller array than it was given, whether it succeeds or not. *)
Definition never_shrinks (u : ufun) : Prop := forall p tag q e, u p tag = Ok (q, e) -> cap p <= cap q.
Fixpoint value_never_shrinks (v : gvalue) : Prop :=
  match v with
  | VFunc (Some f) => fun_never_shrinks f
  | VPtr _ v => value_never_shrinks v
  | VUser a e => opt never_shrinks a /\ opt never_shrinks e
  | _ => True
  end
with fun_never_shrinks (f : exprfun) : Prop :=
  match f with
  | EOperator _ ps | ECall _ ps => all value_never_shrinks ps
  | EUserFn u => never_shrinks u
  | _ => True
  end.

(* A value that cannot be a statement's argument: a type that is not supported and has no method of
   its own, an expression function, or a pointer that leads to such a value or to nil. *)
Inductive foreign : gvalue -> Prop :=
| F_user m : foreign (VUser None m)
| F_func f : foreign (VFunc f)
| F_nil i : foreign (VPtr i VNil)
| F_ptr i v : foreign v -> foreign (VPtr i v).

Definition call_never_shrinks (c : call) : Prop :=
  match c with
  | CStmtExecute _ args | CExecute _ args => Forall value_never_shrinks args
  | CPrepare _ _ | CDeallocate _ => True
  | CInsert _ _ rows => Forall (Forall value_never_shrinks) rows
  | CInsertF _ _ ops _ => Forall (Forall value_never_shrinks) (rows_of ops)
  | CUpdate _ cr set => opt fun_never_shrinks cr /\ Forall value_never_shrinks (map snd set)
  | CUpdateF _ cr ops _ => opt fun_never_shrinks cr /\ Forall value_never_shrinks (map snd (sets_of ops))
  | CDelete _ cr => opt fun_never_shrinks cr
  end.
(* No statement of the program has a foreign argument. *)
Definition no_foreign_args (c : call) : Prop :=
  match c with CStmtExecute _ args | CExecute _ args => Forall (fun v => ~ foreign v) args | _ => True end.

(* No user code in the program shrinks the array, and no statement has a foreign argument, whatever InsertRow returns. *)
Fixpoint prog_keeps (pr : prog) : Prop :=
  match pr with
  | Ret _ _ => True
  | PCall _ c next => (call_never_shrinks c /\ no_foreign_args c) /\ prog_keeps next
  | PInsertRow _ _ _ row next => Forall value_never_shrinks row /\ forall o, prog_keeps (next o)
  | PBlock _ _ body next => prog_keeps body /\ forall out, prog_keeps (next out)
  end.
