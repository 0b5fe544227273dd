(* Specification: what an XPipe holds after a sequence of operations. *)
From Coq Require Import List NArith.
From Verif Require Import Base GoSlice SpecWire SpecMsg Values Builder SpecProg History.
Import ListNotations.
Open Scope N_scope.

(* The programs built since the last Reset, or since New: held is what was built before. Send
   changes nothing. *)
Fixpoint pending (held : list prog) (ops : list op) : list prog :=
  match ops with
  | [] => held
  | Build pr :: ops => pending (held ++ [pr]) ops
  | Send :: ops => pending held ops
  | Reset :: ops => pending [] ops
  end.

(* The arguments of all calls are well-formed Go values. *)
Definition op_ok (w32 : bool) (o : op) : Prop := match o with Build pr => prog_ok w32 pr | _ => True end.

(* bs says what the programs stand for, one after the other, and no two of their InsertRow calls
   use the same variable. *)
Definition holds (bs : bytes) (prs : list prog) : Prop :=
  exists units : list (list msg * list bytes),
    Forall2 (fun pr u => exists out, prog_msgs pr (fst u) (snd u) out) prs units /\
    dstream bs = Some (concat (map fst units)) /\ NoDup (concat (map snd units)).

(* The program calls some method of the pipe. *)
Definition calls_something (o : op) : Prop := match o with Build (Ret _ _) => False | _ => True end.

(* The program runs no user code with a builder disabled: no Tx, ExpectFailOnError, InsertF, UpdateF. *)
Fixpoint no_callbacks (pr : prog) : Prop :=
  match pr with
  | Ret _ _ => True
  | PCall _ c next => match c with CInsertF _ _ _ _ | CUpdateF _ _ _ _ => False | _ => True end /\ no_callbacks next
  | PInsertRow _ _ _ _ next => forall o, no_callbacks (next o)
  | PBlock _ _ _ _ => False
  end.
