(* Which encoders of the user a call is to run, and what the call would be with encoders that do not depend on the world. *)
From Coq Require Import List NArith.
From Verif Require Import Base GoSlice Values Builder Stateful.
Import ListNotations.

Section World.
Variable W : Type.
Notation sfun := (sfun W). Notation svalue := (svalue W). Notation sexpr := (sexpr W). Notation scall := (scall W).

(* The calls l lead from one world to the other: each starts in the world the one before left. *)
Inductive chain : W -> list (sfun * W) -> W -> Prop :=
| Chain_none w : chain w [] w
| Chain_call f w p tag l w' : chain (snd (f w p tag)) l w' -> chain w ((f, w) :: l) w'.

(* The encoders of values, from left to right: as arguments of statements AppendAny counts, in expressions AppendExpr. *)
Definition encoder (o : option sfun) : list sfun := match o with Some f => [f] | None => [] end.
Fixpoint encoders (any : bool) (v : svalue) : list sfun :=
  match v with
  | SVal _ _ => []
  | SPtr _ _ v => encoders any v
  | SUser _ a e => encoder (if any then a else e)
  | SFunc _ f => fun_encoders f
  end
with fun_encoders (f : sexpr) : list sfun :=
  match f with
  | SFun _ _ => []
  | SOperator _ _ params | SCall _ _ params => flat_map (encoders false) params
  | SUserFn _ f => [f]
  end.

Definition criteria_encoders (criteria : option sexpr) : list sfun := match criteria with Some f => fun_encoders f | None => [] end.
Definition row_encoders (row : list svalue) : list sfun := flat_map (encoders false) row.
Definition call_encoders (c : scall) : list sfun :=
  match c with
  | SStmtExecute _ _ args | SExecute _ _ args => flat_map (encoders true) args
  | SInsert _ _ _ rows => flat_map row_encoders rows
  | SInsertF _ _ _ ops _ => flat_map (fun o => match o with SRow _ row => row_encoders row | SIOuter _ _ => [] end) ops
  | SUpdate _ _ criteria set => criteria_encoders criteria ++ flat_map (fun kv => encoders false (snd kv)) set
  | SUpdateF _ _ criteria ops _ => criteria_encoders criteria ++ flat_map (fun o => match o with SSet _ _ v => encoders false v | SUOuter _ _ => [] end) ops
  | SDelete _ _ criteria => criteria_encoders criteria
  | SOther _ _ => []
  end.

(* The encoder f as it is in the world w. *)
Definition as_in (w : W) (f : sfun) : ufun := fun p tag => fst (f w p tag).

(* The same with each encoder as it is in a world of the list: the first one in the first, and so on; d when the list is too short. *)
Variable d : W.
Definition supply (X : Type) := list W -> X * list W.

Definition frz_list {A B} (f : A -> supply B) : list A -> supply (list B) :=
  fix go l ws :=
  match l with
  | [] => ([], ws)
  | x :: l => let y := f x ws in let ys := go l (snd y) in (fst y :: fst ys, snd ys)
  end.
Definition frz_option {A B} (f : A -> supply B) (o : option A) : supply (option B) := fun ws =>
  match o with
  | None => (None, ws)
  | Some x => let y := f x ws in (Some (fst y), snd y)
  end.
Definition frz_map {A B X} (f : A -> supply B) (g : B -> X) (x : A) : supply X := fun ws => let y := f x ws in (g (fst y), snd y).

Fixpoint frz (v : svalue) (ws : list W) : gvalue * list W :=
  match v with
  | SVal _ v => (v, ws)
  | SPtr _ i v => let y := frz v ws in (VPtr i (fst y), snd y)
  | SUser _ a e => (VUser (option_map (as_in (hd d ws)) a) (option_map (as_in (hd d ws)) e), tl ws)
  | SFunc _ f => let y := frz_fun f ws in (VFunc (Some (fst y)), snd y)
  end
with frz_fun (f : sexpr) (ws : list W) : exprfun * list W :=
  match f with
  | SFun _ f => (f, ws)
  | SOperator _ name params => let y := frz_list frz params ws in (EOperator name (fst y), snd y)
  | SCall _ name params => let y := frz_list frz params ws in (ECall name (fst y), snd y)
  | SUserFn _ f => (EUserFn (as_in (hd d ws) f), tl ws)
  end.

Definition frz_row : list svalue -> supply (list gvalue) := frz_list frz.
Definition frz_iop (o : siop W) : supply iop := match o with SRow _ row => frz_map frz_row IRow row | SIOuter _ lvl => fun ws => (IOuter lvl, ws) end.
Definition frz_uop (o : suop W) : supply uop := match o with SSet _ name v => frz_map frz (USet name) v | SUOuter _ lvl => fun ws => (UOuter lvl, ws) end.
Definition frz_set (kv : bytes * svalue) : supply (bytes * gvalue) := frz_map frz (pair (fst kv)) (snd kv).

Definition frz_call (c : scall) (ws : list W) : call :=
  match c with
  | SStmtExecute _ stmt args => CStmtExecute stmt (fst (frz_row args ws))
  | SExecute _ id args => CExecute id (fst (frz_row args ws))
  | SInsert _ name columns rows => CInsert name columns (fst (frz_list frz_row rows ws))
  | SInsertF _ name columns ops cberr => CInsertF name columns (fst (frz_list frz_iop ops ws)) cberr
  | SUpdate _ name criteria set => let y := frz_option frz_fun criteria ws in CUpdate name (fst y) (fst (frz_list frz_set set (snd y)))
  | SUpdateF _ name criteria ops cberr => let y := frz_option frz_fun criteria ws in CUpdateF name (fst y) (fst (frz_list frz_uop ops (snd y))) cberr
  | SDelete _ name criteria => CDelete name (fst (frz_option frz_fun criteria ws))
  | SOther _ c => c
  end.
End World.
