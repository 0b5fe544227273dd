(* Vocabulary for statements about which responses belong to which call. *)
From Coq Require Import String List NArith Bool.
From Coq Require Import List.
From Verif Require Import Base SpecMsg Values SpecValue MsgModel Builder SpecProg.
Import ListNotations.
Open Scope N_scope.

(* What an application does with builders, one after the other: call a method, InsertRow, enter the callback of Tx or
   ExpectFailOnError, return from it. *)
Inductive deed :=
| ACall (c : call)
| ARow (name : bytes) (cols : list bytes) (row : list gvalue)
| AEnter (k : block)
| ALeave (k : block).

(* made pr ds out: these are the deeds of the program, InsertRow having returned some variable each time. *)
Inductive made : prog -> list deed -> list (option exprfun) -> Prop :=
| A_ret cberr out : made (Ret cberr out) [] out
| A_call c next ds out : made next ds out -> made (PCall 0 c next) (ACall c :: ds) out
| A_row name cols row next id ds out : made (next (Some (EVariable id))) ds out -> made (PInsertRow 0 name cols row next) (ARow name cols row :: ds) out
| A_block k body next ds1 out1 ds2 out : made body ds1 out1 -> made (next out1) ds2 out ->
    made (PBlock 0 k body next) (AEnter k :: ds1 ++ ALeave k :: ds2) out.

(* How many responses there are to it. Tx with a level of isolation needs a statement more than without one, or with a snapshot. *)
Definition width (d : deed) : nat :=
  match d with
  | ACall _ => 1
  | ARow _ _ _ => 2
  | AEnter (KTx level) => if (1 <=? level) && (level <=? 4) then 2 else 1
  | AEnter (KExpectFailOnError _) => 1
  | ALeave _ => 1
  end%nat.
(* The position of the first response to the k-th, from 0. *)
Definition place (ds : list deed) (k : nat) : nat := list_sum (map width (firstn k ds)).
(* Of something for each message: what is there for the k-th deed. *)
Definition part {A} (ds : list deed) (k : nat) (l : list A) : list A :=
  match nth_error ds k with Some d => firstn (width d) (skipn (place ds k) l) | None => [] end.

(* The messages that ask for it. *)
Definition asks (d : deed) (ms : list msg) : Prop :=
  match d with
  | ACall c => exists m, ms = [m] /\ call_denotes c m
  | ARow name cols row => exists es id, Forall2 expr_denotes row es /\ ms = [MInsert name (Some table_model) cols [es]; set_last_id id]
  | AEnter k => opening k = Some ms
  | ALeave k => ms = [closing k]
  end.
