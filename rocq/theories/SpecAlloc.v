(* Specification: sizes of buffers (C78). *)
From Coq Require Import List NArith.
From Verif Require Import Base SpecWire SpecUnit.
Import ListNotations.
Open Scope N_scope.

Definition total (ns : list N) : N := fold_right N.add 0 ns.

(* Somewhere between whole messages the stream announces a message with n bytes of payload. *)
Definition announced (n : N) (stream : bytes) : Prop :=
  exists messages header rest, stream = concat (map frame messages) ++ header ++ rest /\ nlen header = 5 /\ le (firstn 4 header) = 1 + n.
