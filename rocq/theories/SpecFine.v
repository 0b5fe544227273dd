(* C103: what goroutines that share memory must not do. *)
From Coq Require Import List Arith.
From Verif Require Import Fine MemPipes FineRun.
Import ListNotations.

(* The array an access is to. *)
Definition array_of (x : access) : nat := match x with Reads a _ | Writes a _ | Makes a => a end.

(* Two accesses to the same element, at least one of which writes it. *)
Inductive conflict : access -> access -> Prop :=
| write_write a x : conflict (Writes a x) (Writes a x)
| write_read a x : conflict (Writes a x) (Reads a x)
| read_write a x : conflict (Reads a x) (Writes a x)
| make_any a y : array_of y = a -> conflict (Makes a) y
| any_make a y : array_of y = a -> conflict y (Makes a).

(* Nothing in the uses of a pipe orders the accesses of two goroutines (no locks, no channels), so two conflicting accesses by different ones are a
   data race. *)
Definition race (tr : list (nat * access)) : Prop :=
  exists i j x y, i <> j /\ In (i, x) tr /\ In (j, y) tr /\ conflict x y.

(* Goroutine i has done all it was to do, and l is the result: what it has seen. *)
Definition finished {A} (s : state A) (i : nat) (l : A) : Prop := doing s i = Return l.
