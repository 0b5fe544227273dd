(* How a MySQL server treats the messages of a connection, as far as expectation blocks go
   (mysqlx_expect.proto, README.md "Error Handling"). Any message may fail for reasons of its own. *)
From Coq Require Import String List NArith Bool.
From Coq Require Import List.
From Verif Require Import Base SpecMsg.
Import ListNotations.
Open Scope N_scope.

Inductive outcome := Executed | Failed | Skipped.

(* An open expectation block: errors in it make the remaining messages fail; one has occurred. *)
Record eblock := mkblock { no_error : bool; has_failed : bool }.

(* An error happened in the innermost block. *)
Definition fail_top (st : list eblock) : list eblock :=
  match st with
  | [] => []
  | b :: st => mkblock (no_error b) (has_failed b || no_error b) :: st
  end.
Definition rejecting (st : list eblock) : bool := match st with [] => false | b :: _ => has_failed b end.

Definition asks_no_error (c : cond) : bool :=
  match c with CNoError v => if list_eq_dec N.eq_dec v (s2b "1") then true else false | CFieldExist _ => false end.
(* The block Open begins: with the conditions of the enclosing block (op 0) or without (op 1), plus its own. *)
Definition opened (op : N) (cs : list cond) (st : list eblock) : bool :=
  (if op =? 0 then match st with [] => false | b :: _ => no_error b end else false) || existsb asks_no_error cs.

Definition ordinary (m : msg) : Prop := match m with MExpectOpen _ _ | MExpectClose => False | _ => True end.

(* serve st ms trace: with the blocks st open (innermost first) the server may treat the messages ms as
   the trace says. propagates: the error Close gives for a failed block counts as an error in the
   block around it. *)
Inductive serve (propagates : bool) : list eblock -> list msg -> list (msg * outcome) -> Prop :=
| S_done st : serve propagates st [] []
| S_skip st m ms tr : ordinary m -> rejecting st = true -> serve propagates st ms tr -> serve propagates st (m :: ms) ((m, Skipped) :: tr)
| S_exec st m ms tr : ordinary m -> rejecting st = false -> serve propagates st ms tr -> serve propagates st (m :: ms) ((m, Executed) :: tr)
| S_fail st m ms tr : ordinary m -> rejecting st = false -> serve propagates (fail_top st) ms tr -> serve propagates st (m :: ms) ((m, Failed) :: tr)
| S_open st op cs ms tr : rejecting st = false -> serve propagates (mkblock (opened op cs st) false :: st) ms tr ->
    serve propagates st (MExpectOpen op cs :: ms) ((MExpectOpen op cs, Executed) :: tr)
| S_open_fail st op cs ms tr : rejecting st = false -> serve propagates (mkblock (opened op cs st) true :: st) ms tr ->
    serve propagates st (MExpectOpen op cs :: ms) ((MExpectOpen op cs, Failed) :: tr)
| S_open_skip st op cs ms tr : rejecting st = true -> serve propagates (mkblock (opened op cs st) true :: st) ms tr ->
    serve propagates st (MExpectOpen op cs :: ms) ((MExpectOpen op cs, Skipped) :: tr)
| S_close b st ms tr : has_failed b = false -> serve propagates st ms tr -> serve propagates (b :: st) (MExpectClose :: ms) ((MExpectClose, Executed) :: tr)
| S_close_failed b st ms tr : has_failed b = true -> serve propagates (if propagates then fail_top st else st) ms tr ->
    serve propagates (b :: st) (MExpectClose :: ms) ((MExpectClose, Failed) :: tr)
| S_close_none ms tr : serve propagates [] ms tr -> serve propagates [] (MExpectClose :: ms) ((MExpectClose, Failed) :: tr).

Definition executed (t : msg * outcome) : Prop := snd t = Executed.
