(* What the theorems of ThmArg.v say about []byte arguments. *)
From Coq Require Import List NArith Arith.
From Verif Require Import Base GoSlice Values Builder SpecValue SpecMem Mem MemModel MemArg.
Import ListNotations.

(* ---- the same values with, in place of every reference, what it refers to in memory m ---- *)
Section Now.
Variable m : mem.

Definition octets_now (k : octets) (s : hslice) : gvalue :=
  let b := Some (contents m s) in
  match k with OBytes => VBytes b | OXml => VXml b | OJson => VJson b | OGeometry => VGeometry b end.

Fixpoint value_now (v : rvalue) : gvalue :=
  match v with
  | RVal v => v
  | RRef k s => octets_now k s
  | RPtr iface v => VPtr iface (value_now v)
  | RFunc f => VFunc (Some (fun_now f))
  end
with fun_now (f : rfun) : exprfun :=
  match f with
  | RFun f => f
  | ROperator name ps => EOperator name (map value_now ps)
  | RCall name ps => ECall name (map value_now ps)
  end.

Definition iop_now (o : riop) : iop := match o with RRow row => IRow (map value_now row) | RIOuter lvl => IOuter lvl end.
Definition uop_now (o : ruop) : uop := match o with RSet k v => USet k (value_now v) | RUOuter lvl => UOuter lvl end.

Definition call_now (c : rcall) : call :=
  match c with
  | RStmtExecute stmt args => CStmtExecute stmt (map value_now args)
  | RExecute id args => CExecute id (map value_now args)
  | RInsert name columns rows => CInsert name columns (map (map value_now) rows)
  | RInsertF name columns ops e => CInsertF name columns (map iop_now ops) e
  | RUpdate name criteria set => CUpdate name (option_map fun_now criteria) (map (fun kv => (fst kv, value_now (snd kv))) set)
  | RUpdateF name criteria ops e => CUpdateF name (option_map fun_now criteria) (map uop_now ops) e
  | RDelete name criteria => CDelete name (option_map fun_now criteria)
  | ROther c => c
  end.

Fixpoint prog_now (pr : rprog) : prog :=
  match pr with
  | RRet e out => Ret e out
  | RPCall lvl c next => PCall lvl (call_now c) (prog_now next)
  | RPInsertRow lvl name columns row next => PInsertRow lvl name columns (map value_now row) (fun o => prog_now (next o))
  | RPBlock lvl k body next => PBlock lvl k (prog_now body) (fun out => prog_now (next out))
  end.
End Now.

(* ---- every slice referred to satisfies Q ---- *)
Section Refs.
Variable Q : hslice -> Prop.

Fixpoint value_refs (v : rvalue) : Prop :=
  match v with
  | RVal _ => True
  | RRef _ s => Q s
  | RPtr _ v => value_refs v
  | RFunc f => fun_refs f
  end
with fun_refs (f : rfun) : Prop :=
  match f with
  | RFun _ => True
  | ROperator _ ps | RCall _ ps => all value_refs ps
  end.

Definition iop_refs (o : riop) : Prop := match o with RRow row => Forall value_refs row | RIOuter _ => True end.
Definition uop_refs (o : ruop) : Prop := match o with RSet _ v => value_refs v | RUOuter _ => True end.

Definition call_refs (c : rcall) : Prop :=
  match c with
  | RStmtExecute _ args | RExecute _ args => Forall value_refs args
  | RInsert _ _ rows => Forall (Forall value_refs) rows
  | RInsertF _ _ ops _ => Forall iop_refs ops
  | RUpdate _ cr set => opt fun_refs cr /\ Forall (fun kv => value_refs (snd kv)) set
  | RUpdateF _ cr ops _ => opt fun_refs cr /\ Forall uop_refs ops
  | RDelete _ cr => opt fun_refs cr
  | ROther _ => True
  end.

Fixpoint prog_refs (pr : rprog) : Prop :=
  match pr with
  | RRet _ _ => True
  | RPCall _ c next => call_refs c /\ prog_refs next
  | RPInsertRow _ _ _ row next => Forall value_refs row /\ forall o, prog_refs (next o)
  | RPBlock _ _ body next => prog_refs body /\ forall out, prog_refs (next out)
  end.
End Refs.

(* None of the elements of t is in the room behind the elements of s, where append puts what it appends to s. *)
Definition clear_of (s t : hslice) : Prop :=
  hlen t = 0%nat \/ arr t <> arr s \/ (off t + hlen t <= off s + hlen s)%nat \/ (off s + hcap s <= off t)%nat.
