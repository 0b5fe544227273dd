(* Specification: programs of calls that are each below a size. *)
From Coq Require Import List NArith.
From Verif Require Import Base Values Builder SpecValue SpecProg.
Open Scope N_scope.

(* The arguments of every call of the program, with some allowance per argument, are below n bytes. *)
Definition calls_below (n : N) : prog -> Prop :=
  prog_all (fun c => call_weight c < n) (fun name cols row => row_size name cols row < n) (fun _ => True).
