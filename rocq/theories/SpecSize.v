(* Specification: how large the messages and the unit of work are that a program builds, in terms of its arguments. *)
From Coq Require Import List NArith.
From Verif Require Import Base Values Builder SpecValue SpecProg.
Open Scope N_scope.

(* No message of the program is larger than m, and all of it is not larger than n: what counts for a call is the length of its strings and []byte,
   with an allowance of 512 bytes for each name, value, operator, function, row and column (call_weight), and 8 bytes for the frame.
   InsertRow adds a second statement (of up to 1024 bytes here), and a block its opening and closing messages (up to 2048 bytes). *)
Fixpoint fits_in (m n : N) (pr : prog) : Prop :=
  match pr with
  | Ret _ out => Forall row_variable out
  | PCall _ c next => 8 + call_weight c <= m /\ exists rest, 8 + call_weight c + rest <= n /\ fits_in m rest next
  | PInsertRow _ name cols row next =>
      8 + row_size name cols row <= m /\ exists rest, 8 + row_size name cols row + 1024 + rest <= n /\ forall o, row_variable o -> fits_in m rest (next o)
  | PBlock _ _ body next =>
      exists inside rest, 2048 + inside + rest <= n /\ fits_in m inside body /\ forall out, Forall row_variable out -> fits_in m rest (next out)
  end.
