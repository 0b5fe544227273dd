(* Common vocabulary of the model: bytes, Go-style results, string literals. *)
From Coq Require Import Ascii String NArith ZArith List.
Import ListNotations.
Open Scope N_scope.

(* A byte is an N; [is_byte] says it is a real byte. Go strings and byte slices are lists of bytes. *)
Definition bytes := list N.
Definition is_byte (b : N) : Prop := b < 256.
Definition is_bytes (l : bytes) : Prop := Forall is_byte l.

(* Outcome of running Go code: it returns, or it panics. *)
Inductive res (A : Type) := Ok (a : A) | Panic.
Arguments Ok {A} _.
Arguments Panic {A}.

Definition bind {A B} (m : res A) (f : A -> res B) : res B :=
  match m with Ok a => f a | Panic => Panic end.
Notation "'do' x <- e ; f" := (bind e (fun x => f)) (at level 200, x pattern, e at level 100, f at level 200).

(* byte(x), a Go conversion to uint8. *)
Definition byte (x : N) : N := x mod 256.

(* The bytes of a string literal. *)
Definition s2b (s : string) : bytes := map N_of_ascii (list_ascii_of_string s).

Definition nlen (l : bytes) : N := N.of_nat (length l).

(* Go errors are values; only their identity matters to the model. *)
Inductive err :=
| EUnsupported                       (* appendAny / appendExpr: type not supported *)
| EParam (j : nat) (e : err)         (* AppendExprOperator/FunctionCall: parameter j *)
| EColumnErr (j : nat) (e : err)     (* AppendInsertRow: column j *)
| ERowLen (i expected got : nat)     (* Builder.Insert: wrong number of values in row i *)
| EIsolation                         (* Builder.Tx: unsupported isolation level *)
| EUser (n : N).                     (* an error made by user code *)
