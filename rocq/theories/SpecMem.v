(* What the theorems of ThmMem.v say about memory, and about the user code that writes to it. *)
From Coq Require Import List NArith Arith.
From Verif Require Import Base GoSlice Values SpecValue Builder Mem MemModel.
Import ListNotations.

(* User code keeps its hands off what is already in the slice it is given: what it returns, if it is in the same array
   (which the model takes from its capacity), is not shorter and the array starts with the same bytes; and if there is no
   error what it returns is not shorter. With an error it may return nil, or a slice of another array. *)
Definition leaves_alone (u : ufun) : Prop := forall p tag q e, u p tag = Ok (q, e) ->
  (cap q = cap p -> (len p <= len q)%nat /\ firstn (len p) (data q ++ spare q) = data p) /\
  (e = None -> (len p <= len q)%nat).

(* Every user encoder found inside a value, a call or a program satisfies P. *)
Section Users.
Variable P : ufun -> Prop.

Fixpoint value_users (v : gvalue) : Prop :=
  match v with
  | VFunc (Some f) => fun_users f
  | VPtr _ v => value_users v
  | VUser a e => opt P a /\ opt P e
  | _ => True
  end
with fun_users (f : exprfun) : Prop :=
  match f with
  | EOperator _ ps | ECall _ ps => all value_users ps
  | EUserFn u => P u
  | _ => True
  end.

Definition iop_users (o : iop) : Prop := match o with IRow row => Forall value_users row | IOuter _ => True end.
Definition uop_users (o : uop) : Prop := match o with USet _ v => value_users v | UOuter _ => True end.
Definition call_users (c : call) : Prop :=
  match c with
  | CStmtExecute _ args | CExecute _ args => Forall value_users args
  | CPrepare _ _ | CDeallocate _ => True
  | CInsert _ _ rows => Forall (Forall value_users) rows
  | CInsertF _ _ ops _ => Forall iop_users ops
  | CUpdate _ cr set => opt fun_users cr /\ Forall (fun kv => value_users (snd kv)) set
  | CUpdateF _ cr ops _ => opt fun_users cr /\ Forall uop_users ops
  | CDelete _ cr => opt fun_users cr
  end.

Fixpoint prog_users (pr : prog) : Prop :=
  match pr with
  | Ret _ out => Forall (opt fun_users) out
  | PCall _ c next => call_users c /\ prog_users next
  | PInsertRow _ _ _ row next => Forall value_users row /\ forall o, opt fun_users o -> prog_users (next o)
  | PBlock _ _ body next => prog_users body /\ forall out, Forall (opt fun_users) out -> prog_users (next out)
  end.
End Users.

(* The memory that is left behind, whether the code returned or panicked. *)
Definition mem_after {A} (r : hres A) : mem := match r with HOk _ m => m | HPanic m => m end.

(* The slice header denotes memory that exists. *)
Definition valid (m : mem) (s : hslice) : Prop :=
  (hlen s <= hcap s)%nat /\ (off s + hcap s <= length (array m (arr s)))%nat.

(* The slice value a header stands for: its elements, and what is behind them up to its capacity. *)
Definition value_of (m : mem) (s : hslice) : slice :=
  let l := firstn (hcap s) (skipn (off s) (array m (arr s))) in mk (firstn (hlen s) l) (skipn (hlen s) l).

(* No element can be reached through both. *)
Definition apart (s t : hslice) : Prop :=
  hcap s = 0%nat \/ hcap t = 0%nat \/ arr s <> arr t \/ (off s + hcap s <= off t)%nat \/ (off t + hcap t <= off s)%nat.

(* t is s in the same place and not shorter, or is in memory that was allocated after m. *)
Definition grown (m : mem) (s t : hslice) : Prop :=
  (arr t = arr s /\ off t = off s /\ hcap t = hcap s /\ (hlen s <= hlen t)%nat) \/ (length m <= arr t)%nat.

(* The pipe b, in memory m, has been used again and again, though not Reset, and is now b', in m'. Uses may panic and be
   recovered from; what a use that panics leaves as the pipe's buffer is what it had before, maybe with something appended. *)
Inductive used `{E : Env} (b : hbuilder) (m : mem) : hbuilder -> mem -> Prop :=
| used_not : used b m b m
| used_call b1 m1 pr b2 out m2 : used b m b1 m1 -> prog_users leaves_alone pr ->
    h_run pr [b1] m1 = HOk ([b2], out) m2 -> used b m b2 m2
| used_panic b1 m1 pr b2 m2 : used b m b1 m1 -> prog_users leaves_alone pr ->
    h_run pr [b1] m1 = HPanic m2 -> valid m2 (hbuf b2) -> hdisabled b2 = false -> grown m1 (hbuf b1) (hbuf b2) -> used b m b2 m2.
