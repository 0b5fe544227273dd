(* Which expectation blocks a server has open on a connection, and what happened in them. *)
From Coq Require Import String List NArith Bool.
From Coq Require Import List.
From Verif Require Import Base SpecMsg SpecServer.
Import ListNotations.
Open Scope list_scope.

Notation event := (msg * outcome)%type.

(* The blocks that are open after these events, the innermost first: each with all that happened since it was opened, its opening included. *)
Definition open_step (blocks : list (list event)) (t : event) : list (list event) :=
  match fst t with
  | MExpectOpen _ _ => [t] :: map (fun b => b ++ [t]) blocks
  | MExpectClose => map (fun b => b ++ [t]) (tl blocks)
  | _ => map (fun b => b ++ [t]) blocks
  end.
Definition open_blocks (tr : list event) : list (list event) := fold_left open_step tr [].

(* An error happened in it. *)
Definition erred (block : list event) : Prop := exists m, In (m, Failed) block.
