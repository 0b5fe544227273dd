(* Specification: programs that ask for something that cannot be sent. *)
From Coq Require Import List NArith.
From Verif Require Import Base Values Builder.
Import ListNotations.

(* Unless an error occurs first, and whatever InsertRow returns, the program, or a callback in it, makes a
   call that satisfies C or an InsertRow of a row that satisfies R, on the innermost builder. *)
Inductive asks (C : call -> Prop) (R : list gvalue -> Prop) : prog -> Prop :=
| K_call c next : C c -> asks C R (PCall 0 c next)
| K_row name cols row next : R row -> asks C R (PInsertRow 0 name cols row next)
| K_after_call lvl c next : asks C R next -> asks C R (PCall lvl c next)
| K_after_row lvl name cols row next : (forall o, asks C R (next o)) -> asks C R (PInsertRow lvl name cols row next)
| K_inside lvl k body next : asks C R body -> asks C R (PBlock lvl k body next)
| K_after_block lvl k body next : (forall out, asks C R (next out)) -> asks C R (PBlock lvl k body next).

(* Insert with a row of another length than the list of columns. *)
Definition ragged_insert (c : call) : Prop :=
  match c with CInsert _ cols rows => Exists (fun row => length row <> length cols) rows | _ => False end.
