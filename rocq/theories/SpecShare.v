(* C104: what goroutines do with their pipes when the []byte arguments are in memory they share. *)
From Coq Require Import List NArith Arith.
From Verif Require Import Base GoSlice Values Builder Mem MemArg SpecArg MemPipes Fine FineRun FineArg.
Import ListNotations.

(* The same use with, in place of every argument, what is there in memory m. *)
Definition act_now (m : mem) (a : ract) : act := match a with RAct a => a | RUse pr => AUse (prog_now m pr) end.

(* Every slice a use refers to satisfies Q. *)
Definition act_refs (Q : hslice -> Prop) (a : ract) : Prop := match a with RAct _ => True | RUse pr => prog_refs Q pr end.

(* An access that reads an element of t. *)
Definition reads_of (t : hslice) (x : access) : Prop := exists k, (k < hlen t)%nat /\ x = Reads (arr t) (off t + k).
